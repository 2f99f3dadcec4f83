(** * EnvProofs: C70, C71 *)
From Verif Require Import Py PyLemmas ProxyModel EnvModel EnvSpec.
From Coq Require Import FinFun.
Set Implicit Arguments.
Unset Strict Implicit.
Open Scope list_scope.
Open Scope Z_scope.

Section Proofs.
Context {O A W : Type}.
Notation event := (event O A W).
Notation output := (dict Z (dobs O W)).
Notation env := (env O).
Variable dy : dyn O A W.

Lemma new_ids_length n k : List.length (new_ids n k) = n.
Proof. unfold new_ids. rewrite map_length, seq_length. auto. Qed.
Lemma new_ids_In n k i : In i (new_ids n k) -> k <= i < k + Z.of_nat n.
Proof. unfold new_ids. intros H. apply in_map_iff in H. destruct H as (x & <- & I). apply in_seq in I. lia. Qed.
Lemma new_ids_NoDup n k : NoDup (new_ids n k).
Proof. unfold new_ids. apply Injective_map_NoDup; [intros a b; lia|apply seq_NoDup]. Qed.

Lemma NoDup_app_intro (B : Type) (a b : list B) : NoDup a -> NoDup b -> (forall x, In x a -> In x b -> False) -> NoDup (a ++ b).
Proof.
  induction a as [|x a IH]; intros N1 N2 D; auto. inversion N1; subst. cbn [app]. constructor.
  - intros I. apply in_app_iff in I. destruct I as [I|I]; auto. apply (D x); auto. left; auto.
  - apply IH; auto. intros y I J. apply (D y); auto. right; auto.
Qed.
Lemma dset_fresh (V : Type) (d : dict Z V) k v : ~ In k (dkeys d) -> dset d k v = d ++ [(k, v)].
Proof.
  induction d as [|[k' v'] d IH]; intros N; cbn [dset app]; auto.
  destruct (keqb k k') eqn:E; [exfalso; apply N; left; apply keqb_eq in E; auto|].
  f_equal. apply IH. intros I. apply N. right. auto.
Qed.
Lemma dupdate_fresh (V : Type) (l d : dict Z V) : NoDup (dkeys d ++ dkeys l) -> dupdate d l = d ++ l.
Proof.
  unfold dupdate. revert d. induction l as [|[k v] l IH]; intros d ND; cbn [fold_left]; [rewrite app_nil_r; auto|].
  cbn [fst snd dkeys map] in *. rewrite dset_fresh.
  - rewrite IH, <- app_assoc; auto. unfold dkeys in *. rewrite map_app, <- app_assoc. exact ND.
  - intros I. apply NoDup_remove_2 in ND. apply ND. apply in_or_app. auto.
Qed.
Lemma dupdate_nil (V : Type) (l : dict Z V) : NoDup (dkeys l) -> dupdate [] l = l.
Proof. intros ND. rewrite dupdate_fresh; auto. Qed.

Lemma predict_length call row (obs : list O) acts : List.length obs = List.length acts -> List.length (predict dy call row obs acts) = List.length obs.
Proof.
  revert row acts. induction obs as [|o obs IH]; intros row [|a acts] L; try discriminate; auto.
  cbn [predict]. destruct (dy_model dy call row o a) as [o' w]. cbn [List.length]. f_equal. apply IH. auto.
Qed.
Lemma predict_nth call (obs : list O) : forall row acts i r, nth_error (predict dy call row obs acts) i = Some r ->
  exists o a w, nth_error obs i = Some o /\ nth_error acts i = Some a /\ dy_model dy call (row + i) o a = (fst (fst r), w)
    /\ snd (fst r) = match dy_reward dy with None => w | Some f => f call (row + i)%nat a (fst (fst r)) end
    /\ snd r = dy_done dy call (row + i) (fst (fst r)).
Proof.
  induction obs as [|o obs IH]; intros row [|a acts] i r H; cbn [predict] in H; try (destruct i; discriminate).
  destruct (dy_model dy call row o a) as [o' w] eqn:M. destruct i as [|i]; cbn [nth_error] in *.
  - injection H as <-. exists o, a, w. rewrite Nat.add_0_r. auto.
  - apply IH in H. destruct H as (o1 & a1 & w1 & X). exists o1, a1, w1. rewrite Nat.add_succ_r. exact X.
Qed.
Lemma gather_nth (acts : dict Z A) ids l : gather acts ids = Ok l -> List.length l = List.length ids /\
  forall i id, nth_error ids i = Some id -> exists a, nth_error l i = Some a /\ dget acts id = Some a.
Proof.
  revert l. induction ids as [|id ids IH]; intros l H; cbn [gather] in H.
  - injection H as <-. split; auto. intros [|i] id H; discriminate.
  - destruct (dget acts id) as [a|] eqn:E; [|discriminate]. destruct (gather acts ids) as [l'|]; [|discriminate]. cbn in H. injection H as <-.
    destruct (IH _ eq_refl) as [L N]. split; [cbn; congruence|]. intros [|i] id' H; cbn [nth_error] in *; eauto. injection H as <-. eauto.
Qed.
Lemma gather_ok (acts : dict Z A) ids : (forall id, In id ids -> dget acts id <> None) -> exists l, gather acts ids = Ok l.
Proof.
  induction ids as [|id ids IH]; intros H; cbn [gather]; eauto.
  destruct (dget acts id) as [a|] eqn:E; [|exfalso; eapply H; [left; auto|auto]]. destruct IH as [l L]; [intros; apply H; right; auto|].
  rewrite L. cbn. eauto.
Qed.

(** ** One step *)
Definition over (timed : bool) (r : O * W * bool) : bool := snd r || timed.
Definition final (r : O * W * bool) : dobs O W := mkDobs (if snd r then TERMINAL else INTERRUPTED) (fst (fst r)) (Some (snd (fst r))).
Definition running_of (r : O * W * bool) : dobs O W := mkDobs RUNNING (fst (fst r)) (Some (snd (fst r))).

Record respawned (timed : bool) (ids : list Z) (rows : list (O * W * bool)) (init : list O) (next : Z)
    (res : list (Z * dobs O W)) (l : list Z) (n : Z) (news : list Z) : Prop := {
  rs_next : next <= n;
  rs_length : List.length l = List.length ids;
  rs_news : forall id, In id news -> next <= id < n;
  rs_keys : NoDup (dkeys res);
  rs_res : forall id d, In (id, d) res ->
     (exists i r, nth_error ids i = Some id /\ nth_error rows i = Some r /\ over timed r = true /\ d = final r)
     \/ (In id news /\ exists i o, nth_error l i = Some id /\ nth_error init i = Some o /\ d = mkDobs INITIAL o None);
  rs_row : forall i id r, nth_error ids i = Some id -> nth_error rows i = Some r ->
     if over timed r then In (id, final r) res /\ exists nw o, nth_error l i = Some nw /\ In nw news /\ In (nw, mkDobs INITIAL o None) res
     else nth_error l i = Some id;
  rs_l : NoDup l }.
Lemma respawn_ok timed ids : forall rows (init : list O) next res l n news,
  List.length rows = List.length ids -> List.length init = List.length ids -> NoDup ids -> (forall id, In id ids -> id < next) ->
  respawn timed ids rows init next = (res, l, n, news) -> respawned timed ids rows init next res l n news.
Proof.
  induction ids as [|id ids IH]; intros rows init next res l n news LR LI ND LT H.
  - destruct rows; [|discriminate]. cbn [respawn] in H. assert (E : ([], [], next, []) = (res, l, n, news)) by (destruct init; exact H).
    injection E as <- <- <- <-. constructor; try solve [constructor | lia | auto | intros; contradiction].
    intros i id r N. destruct i; discriminate.
  - destruct rows as [|r rows]; [discriminate|]. destruct init as [|o0 init]; [discriminate|]. injection LR as LR. injection LI as LI.
    inversion ND as [|? ? NI ND']; subst. cbn [respawn] in H. destruct r as [[o w] done].
    destruct (done || timed) eqn:D.
    + destruct (respawn timed ids rows init (next + 1)) as [[[res0 l0] n0] news0] eqn:R. injection H as <- <- <- <-.
      assert (LT' : forall id0, In id0 ids -> id0 < next + 1) by (intros i I; specialize (LT i (or_intror I)); lia).
      pose proof (IH _ _ _ _ _ _ _ LR LI ND' LT' R) as X. destruct X as [X1 X2 X3 X4 X5 X6 X7].
      assert (B1 : forall x, In x (dkeys res0) -> x <> next /\ x <> id).
      { intros x I. unfold dkeys in I. apply in_map_iff in I. destruct I as ([y d] & <- & I). cbn [fst].
        destruct (X5 _ _ I) as [(i & r & N & _)|(N & _)].
        - apply nth_error_In in N. specialize (LT y (or_intror N)). split; [lia|]. intros ->. auto.
        - apply X3 in N. specialize (LT id (or_introl eq_refl)). split; lia. }
      constructor.
      * lia.
      * cbn. congruence.
      * intros x [<-|I]; [lia|]. apply X3 in I. lia.
      * cbn [dkeys map fst]. constructor.
        -- intros [E|I]; [specialize (LT id (or_introl eq_refl)); lia|]. apply B1 in I. tauto.
        -- constructor; auto. intros I. apply B1 in I. tauto.
      * intros x d [E|[E|I]].
        -- injection E as <- <-. left. exists 0%nat, (o, w, done). auto.
        -- injection E as <- <-. right. split; [left; auto|]. exists 0%nat, o0. auto.
        -- destruct (X5 _ _ I) as [(i & r & N)|(N & i & x1 & N1)]; [left; exists (S i), r; auto|right; split; [right; auto|exists (S i), x1; auto]].
      * intros [|i] x r N1 N2; cbn [nth_error] in *.
        -- injection N1 as <-. injection N2 as <-. unfold over. cbn [snd]. rewrite D. split; [left; auto|]. exists next, o0. split; auto. split; [left; auto|right; left; auto].
        -- specialize (X6 _ _ _ N1 N2). destruct (over timed r); auto. destruct X6 as (Y & nw & x1 & Y1 & Y2 & Y3). split; [right; right; auto|].
           exists nw, x1. split; auto. split; [right|right; right]; auto.
      * constructor; auto. intros I. apply In_nth_error in I. destruct I as [i I].
        assert (LI' : (i < List.length ids)%nat) by (rewrite <- X2; apply nth_error_Some; congruence).
        destruct (nth_error ids i) as [y|] eqn:N1; [|apply nth_error_None in N1; lia].
        destruct (nth_error rows i) as [r|] eqn:N2; [|apply nth_error_None in N2; lia].
        specialize (X6 _ _ _ N1 N2). destruct (over timed r).
        -- destruct X6 as (_ & nw & _ & Y1 & Y2 & _). rewrite I in Y1. injection Y1 as <-. apply X3 in Y2. lia.
        -- rewrite I in X6. injection X6 as <-. apply nth_error_In in N1. specialize (LT next (or_intror N1)). lia.
    + destruct (respawn timed ids rows init next) as [[[res0 l0] n0] news0] eqn:R. injection H as <- <- <- <-.
      assert (LT' : forall id0, In id0 ids -> id0 < next) by (intros i I; apply LT; right; auto).
      pose proof (IH _ _ _ _ _ _ _ LR LI ND' LT' R) as X. destruct X as [X1 X2 X3 X4 X5 X6 X7].
      constructor; auto.
      * cbn. congruence.
      * intros x d I. destruct (X5 _ _ I) as [(i & r & N)|(N & i & x1 & N1)]; [left; exists (S i), r; auto|right; split; auto; exists (S i), x1; auto].
      * intros [|i] x r N1 N2; cbn [nth_error] in *.
        -- injection N1 as <-. injection N2 as <-. unfold over. cbn [snd]. rewrite D. auto.
        -- specialize (X6 _ _ _ N1 N2). destruct (over timed r); auto.
      * constructor; auto. intros I. apply In_nth_error in I. destruct I as [i I].
        assert (LI' : (i < List.length ids)%nat) by (rewrite <- X2; apply nth_error_Some; congruence).
        destruct (nth_error ids i) as [y|] eqn:N1; [|apply nth_error_None in N1; lia].
        destruct (nth_error rows i) as [r|] eqn:N2; [|apply nth_error_None in N2; lia].
        specialize (X6 _ _ _ N1 N2). destruct (over timed r).
        -- destruct X6 as (_ & nw & _ & Y1 & Y2 & _). rewrite I in Y1. injection Y1 as <-. apply X3 in Y2. specialize (LT id (or_introl eq_refl)). lia.
        -- rewrite I in X6. injection X6 as <-. apply nth_error_In in N1. auto.
Qed.

Lemma going_on_In news l : forall rows id d, In (id, d) (going_on (O := O) (W := W) news l rows) <->
  exists i r, nth_error l i = Some id /\ nth_error rows i = Some r /\ ~ In id news /\ d = running_of r.
Proof.
  induction l as [|x l IH]; intros rows id d; cbn [going_on].
  - split; [intros []|]. intros (i & r & H & _). destruct i; discriminate.
  - destruct rows as [|[[o w] dn] rows].
    + split; [intros []|]. intros (i & r & _ & H & _). destruct i; discriminate.
    + destruct (inb x news) eqn:B.
      * apply inb_In in B. rewrite IH. split.
        -- intros (i & r & H). exists (S i), r. auto.
        -- intros ([|i] & r & H1 & H2 & H3 & H4); cbn [nth_error] in *; [injection H1 as ->; contradiction|]. exists i, r. auto.
      * assert (NB : ~ In x news) by (intros I; apply inb_In in I; congruence). cbn [In]. rewrite IH. split.
        -- intros [E|(i & r & H)]; [injection E as <- <-; exists 0%nat, (o, w, dn); auto|exists (S i), r; auto].
        -- intros ([|i] & r & H1 & H2 & H3 & H4); cbn [nth_error] in *; [left; injection H1 as ->; injection H2 as <-; subst; auto|right; exists i, r; auto].
Qed.
Lemma going_on_NoDup news l : forall rows, NoDup l -> NoDup (dkeys (going_on (O := O) (W := W) news l rows)).
Proof.
  induction l as [|x l IH]; intros rows ND; cbn [going_on]; [constructor|]. destruct rows as [|[[o w] dn] rows]; [constructor|].
  inversion ND as [|? ? N1 N2]; subst. destruct (inb x news); [apply IH; auto|]. cbn [dkeys map fst]. constructor; [|apply IH; auto]. intros I. unfold dkeys in I. apply in_map_iff in I.
  destruct I as ([y d] & E & I). cbn [fst] in E. subst. apply going_on_In in I. destruct I as (i & r & N & _). apply nth_error_In in N. auto.
Qed.

(** The environment is as it should be. *)
Definition sane (e : env) : Prop :=
  List.length (e_ids e) = e_num e /\ NoDup (e_ids e) /\ (forall id, In id (e_ids e) -> id < e_next e)
  /\ match e_current e with Some cur => List.length cur = List.length (e_init e) | None => True end.
Record stepped (e e' : env) (actions : dict Z A) (D : output) (cur : list O) (acts : list A) (rows : list (O * W * bool)) : Prop := {
  sd_current : e_current e = Some cur;
  sd_acts : gather actions (e_ids e) = Ok acts;
  sd_some : acts <> [];
  sd_length : List.length cur = List.length acts;
  sd_rows : rows = predict dy (e_calls e) 0 cur acts;
  sd_keys : NoDup (dkeys D);
  sd_old : forall i id r, nth_error (e_ids e) i = Some id -> nth_error rows i = Some r ->
     dget D id = Some (if over (e_len e <=? e_timestep e + 1) r then final r else running_of r);
  sd_entry : forall id d, dget D id = Some d ->
     (exists i r, nth_error (e_ids e) i = Some id /\ nth_error rows i = Some r)
     \/ (e_next e <= id < e_next e' /\ exists i o, nth_error (e_ids e') i = Some id /\ nth_error (e_init e) i = Some o /\ d = mkDobs INITIAL o None);
  sd_ids : forall i id r, nth_error (e_ids e) i = Some id -> nth_error rows i = Some r ->
     if over (e_len e <=? e_timestep e + 1) r then exists nw o, nth_error (e_ids e') i = Some nw /\ e_next e <= nw < e_next e' /\ dget D nw = Some (mkDobs INITIAL o None)
     else nth_error (e_ids e') i = Some id;
  sd_next : e_next e <= e_next e';
  sd_after : e_current e' = Some (map (fun r => fst (fst r)) rows) /\ e_num e' = e_num e /\ e_init e' = e_init e
     /\ e_timestep e' = e_timestep e + 1 /\ e_len e' = e_len e /\ e_calls e' = S (e_calls e);
  sd_sane : sane e' }.
Lemma step_case e actions : sane e ->
  (exists e' D cur acts rows, dict_step dy e actions = (e', Ok D) /\ stepped e e' actions D cur acts rows)
  \/ exists x, dict_step dy e actions = (e, Err x).
Proof.
  intros (S1 & S2 & S3 & S4). unfold dict_step. destruct (gather actions (e_ids e)) as [acts|x] eqn:G; [|eauto].
  destruct (gather_nth G) as [GL GN].
  destruct acts as [|a0 acts0] eqn:EA; [eauto|]. rewrite <- EA in *. assert (NE : acts <> []) by congruence.
  replace (match acts with [] => (e, Err ValueError) | _ :: _ => match e_current e with Some cur => if Nat.eqb (List.length cur) (List.length acts) then
     let rows := predict dy (e_calls e) 0 cur acts in let timestep := e_timestep e + 1 in let timed_out := e_len e <=? timestep in
     let '(res, ids, next, news) := respawn timed_out (e_ids e) rows (e_init e) (e_next e) in
     (mkEnv (e_num e) ids next (Some (map (fun r => fst (fst r)) rows)) (e_init e) timestep (e_len e) (S (e_calls e)), Ok (dupdate (dupdate [] res) (going_on news ids rows)))
     else (e, Err RuntimeError) | None => (e, Err TypeError) end end) with
    (match e_current e with Some cur => if Nat.eqb (List.length cur) (List.length acts) then
     let rows := predict dy (e_calls e) 0 cur acts in let timestep := e_timestep e + 1 in let timed_out := e_len e <=? timestep in
     let '(res, ids, next, news) := respawn timed_out (e_ids e) rows (e_init e) (e_next e) in
     (mkEnv (e_num e) ids next (Some (map (fun r => fst (fst r)) rows)) (e_init e) timestep (e_len e) (S (e_calls e)), Ok (dupdate (dupdate [] res) (going_on news ids rows)))
     else (e, Err RuntimeError) | None => (e, Err TypeError) end) by (rewrite EA; auto).
  clear EA a0 acts0. destruct (e_current e) as [cur|] eqn:C; [|eauto]. destruct (Nat.eqb_spec (List.length cur) (List.length acts)) as [L|L]; [|eauto].
  cbv zeta. set (rows := predict dy (e_calls e) 0 cur acts). set (timed := e_len e <=? e_timestep e + 1).
  destruct (respawn timed (e_ids e) rows (e_init e) (e_next e)) as [[[res l] n] news] eqn:R.
  assert (LR : List.length rows = List.length (e_ids e)) by (unfold rows; rewrite predict_length by auto; congruence).
  assert (RS : respawned timed (e_ids e) rows (e_init e) (e_next e) res l n news) by (eapply respawn_ok; eauto; congruence).
  destruct RS as [X1 X2 X3 X4 X5 X6 X7].
  assert (ROW : forall i id, nth_error (e_ids e) i = Some id -> exists r, nth_error rows i = Some r).
  { intros i id N. assert (i < List.length rows)%nat by (rewrite LR; apply nth_error_Some; congruence).
    destruct (nth_error rows i) eqn:E; eauto. apply nth_error_None in E. lia. }
  assert (IDS : forall i nw, nth_error l i = Some nw -> exists id r, nth_error (e_ids e) i = Some id /\ nth_error rows i = Some r).
  { intros i nw N. assert (i < List.length (e_ids e))%nat by (rewrite <- X2; apply nth_error_Some; congruence).
    destruct (nth_error (e_ids e) i) as [id|] eqn:E; [|apply nth_error_None in E; lia]. destruct (ROW _ _ E) as [r Er]. eauto. }
  (* entries of those that go on *)
  assert (GO : forall id d, In (id, d) (going_on news l rows) ->
     exists i r, nth_error (e_ids e) i = Some id /\ nth_error rows i = Some r /\ over timed r = false /\ d = running_of r).
  { intros id d I. apply going_on_In in I. destruct I as (i & r & N1 & N2 & N3 & N4). destruct (IDS _ _ N1) as (id0 & r0 & M1 & M2).
    assert (r0 = r) by congruence. subst r0. specialize (X6 _ _ _ M1 N2). destruct (over timed r) eqn:OV.
    - destruct X6 as (_ & nw & _ & Y1 & Y2 & _). rewrite N1 in Y1. injection Y1 as <-. contradiction.
    - rewrite N1 in X6. injection X6 as <-. exists i, r. auto. }
  assert (RES : forall id, In id (dkeys res) -> forall i r, nth_error (e_ids e) i = Some id -> nth_error rows i = Some r -> over timed r = true).
  { intros id I i r N1 N2. unfold dkeys in I. apply in_map_iff in I. destruct I as ([y d] & E & I). cbn [fst] in E. subst y.
    destruct (X5 _ _ I) as [(j & r' & M1 & M2 & M3 & _)|(M & _)].
    - assert (j = i); [|subst; congruence]. apply NoDup_nth_error with (l := e_ids e); auto; [apply nth_error_Some; congruence|congruence].
    - apply X3 in M. apply nth_error_In in N1. apply S3 in N1. lia. }
  assert (DJ : NoDup (dkeys res ++ dkeys (going_on news l rows))).
  { apply NoDup_app_intro; auto; [apply going_on_NoDup; auto|]. intros id I J. unfold dkeys in J. apply in_map_iff in J.
    destruct J as ([y d] & E & J). cbn [fst] in E. subst y. destruct (GO _ _ J) as (i & r & N1 & N2 & N3 & _).
    specialize (RES _ I _ _ N1 N2). congruence. }
  assert (KD : NoDup (dkeys (dupdate res (going_on news l rows)))).
  { rewrite dupdate_fresh by auto. unfold dkeys in *. rewrite map_app. auto. }
  left. eexists _, _, cur, acts, rows. split; [reflexivity|]. rewrite (dupdate_nil X4).
  assert (INR : forall id d, In (id, d) res -> dget (dupdate res (going_on news l rows)) id = Some d).
  { intros id d I. apply In_dget; auto. rewrite dupdate_fresh by auto. apply in_or_app. auto. }
  constructor; cbn [e_current e_ids e_next e_num e_init e_timestep e_len e_calls]; auto.
  - intros i id r N1 N2. pose proof (X6 _ _ _ N1 N2) as Y. fold timed. destruct (over timed r) eqn:OV.
    + apply INR. tauto.
    + apply In_dget; auto. rewrite dupdate_fresh by auto. apply in_or_app. right. apply going_on_In. exists i, r. split; auto. split; auto. split; auto.
      intros I. apply X3 in I. apply nth_error_In in N1. apply S3 in N1. lia.
  - intros id d G'. apply dget_In in G'. rewrite dupdate_fresh in G' by auto. apply in_app_iff in G'. destruct G' as [I|I].
    + destruct (X5 _ _ I) as [(i & r & M1 & M2 & _)|(M & i & o & M1)]; [left; eauto|right; split; [apply X3; auto|eauto]].
    + destruct (GO _ _ I) as (i & r & N1 & N2 & _). left. eauto.
  - intros i id r N1 N2. specialize (X6 _ _ _ N1 N2). fold timed. destruct (over timed r); auto. destruct X6 as (_ & nw & o & Y1 & Y2 & Y3).
    exists nw, o. split; auto.
  - repeat split.
  - split; [cbn; congruence|]. split; [auto|]. cbn [e_ids e_next e_current e_init]. split.
    + intros id I. apply In_nth_error in I. destruct I as [i I]. destruct (IDS _ _ I) as (id0 & r & M1 & M2). specialize (X6 _ _ _ M1 M2).
      destruct (over timed r).
      * destruct X6 as (_ & nw & _ & Y1 & Y2 & _). rewrite I in Y1. injection Y1 as <-. apply X3 in Y2. lia.
      * rewrite I in X6. injection X6 as <-. apply nth_error_In in M1. apply S3 in M1. lia.
    + rewrite map_length. congruence.
Qed.
End Proofs.
