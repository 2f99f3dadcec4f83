(** * ConcProofs: C23 and C26. *)
From Verif Require Import Py PyLemmas MemModel ConcModel ConcSpec.
Open Scope Z_scope.
Set Implicit Arguments.

Section Conc.
Context {S : Type} `{Scalar S}.

Lemma exec_ret (ms : list (table S -> table S * mstate S)) t r :
  exec (map guard ms) (t, MRet r) = (t, MRet r).
Proof. induction ms as [|m ms IH]; simpl; auto. Qed.

Lemma eject_one_lenkey (t : table S) i : t_lenkey (fst (eject_one t i)) = t_lenkey t.
Proof.
  unfold eject_one. destruct (del_all (t_data t) i) as [d [u|e]]; simpl; auto.
  destruct (dget (t_lengths t) i); simpl; auto.
  destruct (s_forget (t_sampler t) i) as [s [u'|e]]; simpl; auto.
  destruct (e_forget (t_ejector t) i) as [s' [u''|e]]; simpl; auto.
Qed.
Lemma eject_all_lenkey ids : forall t : table S, t_lenkey (fst (eject_all t ids)) = t_lenkey t.
Proof.
  induction ids as [|i r IH]; intros t; simpl; auto.
  pose proof (eject_one_lenkey t i) as E. destruct (eject_one t i) as [t1 [u|e]]; simpl in *; auto.
  rewrite IH; auto.
Qed.
Lemma eject_count_lenkey (t : table S) n dr : t_lenkey (fst (eject_count t n dr)) = t_lenkey t.
Proof.
  unfold eject_count. destruct (e_sample (t_ejector (with_filled t true)) n dr) as [e [ids|x]]; simpl; auto.
  rewrite eject_all_lenkey. auto.
Qed.

Lemma add_micros_ok id s dr (t : table S) :
  exec (add_micros id s dr) (t, MRun) =
  (fst (add_sequence t id s dr), MRet (rmap (fun _ => RUnit) (snd (add_sequence t id s dr)))).
Proof.
  unfold add_micros, exec, add_sequence. cbn [fold_left guard snd fst].
  destruct (dget s (t_lenkey t)) as [fr|] eqn:Ef; [|reflexivity].
  set (X := if t_maxlen t <? t_size t + zlen fr then eject_count t (t_size t + zlen fr - t_maxlen t) dr else (t, Ok tt)).
  assert (L : t_lenkey (fst X) = t_lenkey t).
  { unfold X. destruct (t_maxlen t <? t_size t + zlen fr); auto. apply eject_count_lenkey. }
  replace (if t_maxlen t <? t_size t + zlen fr
    then match eject_count t (t_size t + zlen fr - t_maxlen t) dr with
         | (t1, Ok _) => (t1, MRun) | (t1, Err e) => (t1, MRet (Err e)) end
    else (t, MRun)) with (match X with (t1, Ok _) => (t1, @MRun S) | (t1, Err e) => (t1, MRet (Err e)) end)
    by (unfold X; destruct (t_maxlen t <? t_size t + zlen fr); auto).
  destruct X as [t1 [u|e]]; cbn [fst snd guard] in *; [|reflexivity].
  destruct (write_columns (t_cols t1) (t_data t1) (wrap_id id) s) as [d [u1|e]]; cbn [fst snd guard]; [|reflexivity].
  cbn [t_lenkey with_data with_lengths with_sampler with_ejector t_lengths t_total t_sampler t_ejector].
  rewrite L, Ef. destruct (s_track (t_sampler t1) (wrap_id id) (zlen fr)) as [sm [u2|e]]; cbn [fst snd guard]; [|reflexivity].
  cbn [t_lenkey with_data with_lengths with_sampler with_ejector t_lengths t_total t_sampler t_ejector].
  rewrite L, Ef. destruct (e_track (t_ejector t1) (wrap_id id) (zlen fr)) as [ej x]. reflexivity.
Qed.

Lemma op_micros_ok : micro_ok (S:=S) op_micros.
Proof.
  intros o t. destruct o as [id s dr|c n dr|n| | |].
  - unfold op_micros, do_op. rewrite add_micros_ok. destruct (add_sequence t id s dr); auto.
  - unfold op_micros, exec. cbn [fold_left guard snd fst]. destruct (do_op t _); auto.
  - unfold op_micros, exec. cbn [fold_left guard snd fst]. destruct (do_op t _); auto.
  - reflexivity.
  - reflexivity.
  - reflexivity.
Qed.

Lemma replay_snoc t order i o : 
  replay (S:=S) t (order ++ [(i, o)]) =
  (fst (do_op (fst (replay t order)) o),
   snd (replay t order) ++ [(i, (o, snd (do_op (fst (replay t order)) o)))]).
Proof.
  revert t. induction order as [|[j p] r IH]; intros t; cbn [app replay].
  - cbn [fst]. destruct (do_op t o) as [t' x]; auto.
  - destruct (do_op t p) as [t' x]. rewrite IH. destruct (replay t' r) as [t2 l]. auto.
Qed.

Definition linv (t0 : table S) (progs : nat -> list (op S)) (c : config S) : Prop :=
  exists order,
    (forall i, th_log (cf_threads c i) = replies_of i (snd (replay t0 order))) /\
    (forall i, progs i = map fst (th_log (cf_threads c i)) ++
        (match cf_holder c with
         | Some (j, o, _, _) => if Nat.eqb i j then [o] else []
         | None => [] end) ++ th_todo (cf_threads c i)) /\
    match cf_holder c with
    | None => cf_table c = fst (replay t0 order)
    | Some (j, o, ms, st) =>
        exec ms (cf_table c, st) =
        (fst (do_op (fst (replay t0 order)) o), MRet (snd (do_op (fst (replay t0 order)) o)))
    end.

Lemma replies_snoc i j (x : op S * res (reply S)) l :
  replies_of i (l ++ [(j, x)]) = replies_of i l ++ (if Nat.eqb i j then [x] else []).
Proof.
  unfold replies_of. rewrite filter_app, map_app. f_equal. cbn [filter fst].
  rewrite Nat.eqb_sym. destruct (Nat.eqb i j); auto.
Qed.

Lemma linv_step mic t0 progs c c' : micro_ok mic -> linv t0 progs c -> cstep mic c c' -> linv t0 progs c'.
Proof.
  intros Hm (order & A1 & A2 & A3) St. destruct St as [t th i o r l E|t th i o m ms st t' st' E|t th i o x r l E];
    cbn [cf_table cf_holder cf_threads] in *.
  - exists order. cbn [cf_table cf_holder cf_threads]. split; [|split].
    + intros j. unfold upd. destruct (Nat.eqb_spec j i) as [->|Ne]; auto. rewrite <- A1, E. auto.
    + intros j. pose proof (A2 j) as A2j. clear A2. rename A2j into A2. unfold upd. destruct (Nat.eqb_spec j i) as [->|Ne]; auto.
      rewrite E in A2. auto.
    + subst t. rewrite (Hm o). auto.
  - exists order. cbn [cf_table cf_holder cf_threads]. split; auto. split; auto.
    rewrite <- A3. unfold exec. cbn [fold_left]. rewrite E. auto.
  - exists (order ++ [(i, o)]). cbn [cf_table cf_holder cf_threads]. rewrite replay_snoc. cbn [fst snd].
    unfold exec in A3. cbn [fold_left] in A3. injection A3 as Et Ex. split; [|split].
    + intros j. rewrite replies_snoc, <- A1. unfold upd. destruct (Nat.eqb_spec j i) as [->|Ne].
      * rewrite E, <- Ex. auto.
      * rewrite app_nil_r. auto.
    + intros j. pose proof (A2 j) as A2j. clear A2. rename A2j into A2. unfold upd. destruct (Nat.eqb_spec j i) as [Ej|Ne]; auto.
      rewrite Ej in *. rewrite E in A2. cbn [th_log th_todo app] in *. rewrite map_app, <- app_assoc. auto.
    + auto.
Qed.

Lemma linearizable mic t0 progs c : micro_ok mic -> csteps mic (start t0 progs) c -> linv t0 progs c.
Proof.
  intros Hm R. remember (start t0 progs) as c0 eqn:E0. induction R as [c|c1 c2 c3 R IH St].
  - subst c. exists []. cbn. auto.
  - eapply linv_step; eauto.
Qed.

Lemma linearizable_top mic t0 progs c : micro_ok mic -> csteps mic (start t0 progs) c -> cf_holder c = None ->
  exists order, cf_table c = fst (replay t0 order) /\
    forall i, th_log (cf_threads c i) = replies_of i (snd (replay t0 order)) /\
              progs i = map fst (th_log (cf_threads c i)) ++ th_todo (cf_threads c i).
Proof.
  intros Hm R Hn. destruct (linearizable Hm R) as (order & A1 & A2 & A3). rewrite Hn in *.
  exists order. split; [exact A3|]. intros i. split; [apply A1|apply A2].
Qed.

(** No call blocks another one forever: a thread inside always gets out. *)
Lemma csteps_trans mic (a b c : config S) : csteps mic a b -> csteps mic b c -> csteps mic a c.
Proof.
  intros R1 R2. revert R1. induction R2 as [c|c1 c2 c3 R IH St]; intros R1; [exact R1|].
  eapply csteps_more; [apply IH; exact R1|exact St].
Qed.

Lemma holder_leaves mic t0 progs c : micro_ok mic -> csteps mic (start t0 progs) c ->
  exists c', csteps mic c c' /\ cf_holder c' = None.
Proof.
  intros Hm R. pose proof (linearizable Hm R) as I.
  destruct c as [t [[[[i o] ms] st]|] th]; [|exists (mkCfg t None th); split; [constructor|auto]].
  clear R. revert t st I. induction ms as [|m ms IH]; intros t st I.
  - destruct I as (order & _ & _ & A3). cbn in A3. injection A3 as _ ->.
    destruct (th i) as [r l] eqn:E. eexists. split.
    + eapply csteps_more; [apply csteps_refl|]. eapply release. exact E.
    + auto.
  - destruct (m (t, st)) as [t' st'] eqn:E.
    assert (St : cstep mic (mkCfg t (Some (i, o, m :: ms, st)) th) (mkCfg t' (Some (i, o, ms, st')) th)).
    { constructor. auto. }
    destruct (IH t' st') as (c' & R & Hn). { eapply linv_step; eauto. }
    exists c'. split; auto. eapply csteps_trans; [|exact R]. eapply csteps_more; [apply csteps_refl|exact St].
Qed.
End Conc.

(** ** C23 *)
Section Store.
Context {S : Type} `{Scalar S}.

Lemma exec_writes (l : list (member S)) : forall s,
  fs_target (fold_left act (map AWrite l) s) = fs_target s /\
  fs_temp (fold_left act (map AWrite l) s) = option_map (fun x => x ++ l) (fs_temp s).
Proof.
  induction l as [|m l IH]; intros s; cbn [map fold_left].
  - split; auto. destruct (fs_temp s); simpl; auto. rewrite app_nil_r; auto.
  - destruct (IH (act s (AWrite m))) as [E1 E2]. rewrite E1, E2. simpl. split; auto.
    destruct (fs_temp s); simpl; auto. rewrite <- app_assoc. auto.
Qed.

(** Actions that cannot change the target. *)
Definition quiet (a : action (S:=S)) : Prop := a <> ARename.
Lemma quiet_target acts : Forall quiet acts -> forall s, fs_target (fold_left act acts s) = fs_target s.
Proof.
  induction 1 as [|a l Q _ IH]; intros s; simpl; auto. rewrite IH. destruct a; simpl; auto. congruence.
Qed.
Lemma Forall_firstn {A} (P : A -> Prop) n l : Forall P l -> Forall P (firstn n l).
Proof. revert n. induction l as [|x l IH]; intros [|n] F; simpl; auto. inversion F; subst. constructor; auto. Qed.
Lemma quiet_writes (l : list (member S)) : Forall quiet (map AWrite l).
Proof. rewrite Forall_map. apply Forall_forall. intros x _. discriminate. Qed.

Lemma crash_target (r : res (v1file S)) fail k s :
  fs_target (crash s (store_actions r fail) k) = fs_target s \/
  (exists f, r = Ok f /\ fail = None /\
     fs_target (crash s (store_actions r fail) k) = Some (members f ++ [MDirectory])).
Proof.
  unfold crash. destruct r as [f|e].
  - destruct fail as [n|].
    + left. apply quiet_target, Forall_firstn. cbn [store_actions]. constructor; [discriminate|].
      apply Forall_app. split; [apply quiet_writes|]. repeat constructor; discriminate.
    + cbn [store_actions].
      set (pre := ACreate :: map AWrite (members f) ++ [AWrite MDirectory]).
      assert (Ep : ACreate :: map AWrite (members f) ++ [AWrite MDirectory; ARename; AChmod] = pre ++ [ARename; AChmod]).
      { unfold pre. cbn [app]. rewrite <- app_assoc. auto. }
      rewrite Ep. rewrite firstn_app, fold_left_app.
      assert (Qp : Forall quiet pre).
      { unfold pre. constructor; [discriminate|]. apply Forall_app. split; [apply quiet_writes|]. repeat constructor; discriminate. }
      destruct (k - List.length pre)%nat as [|k'] eqn:Ek.
      { left. simpl. apply quiet_target, Forall_firstn; auto. }
      right. exists f. split; auto. split; auto.
      rewrite (@firstn_all2 _ k pre) by lia.
      assert (Tmp : fs_temp (fold_left act pre s) = Some (members f ++ [MDirectory])).
      { unfold pre. cbn [fold_left]. rewrite fold_left_app.
        destruct (exec_writes (members f) (act s ACreate)) as [_ E2].
        destruct (fold_left act (map AWrite (members f)) (act s ACreate)) as [tg tm md].
        cbn [fs_temp act option_map fold_left] in *. rewrite E2. auto. }
      destruct (fold_left act pre s) as [tg tm md]. cbn [fs_temp] in Tmp. subst tm.
      destruct k' as [|[|k']]; reflexivity.
  - left. apply quiet_target, Forall_firstn. destruct fail; repeat constructor; discriminate.
Qed.

Lemma find_skip (ps : list (string * (npy_ranges * array S))) k : ~ In k (map fst ps) -> forall l,
  let m := flat_map (fun p => [MRanges (fst p) (fst (snd p)); MData (fst p) (snd (snd p))]) ps in
  find_ranges (m ++ l) k = find_ranges l k /\ find_data (m ++ l) k = find_data l k.
Proof.
  induction ps as [|p r IH]; intros Ni l; simpl; auto. simpl in Ni.
  rewrite (proj2 (String.eqb_neq k (fst p))) by (intros ->; tauto). apply IH. tauto.
Qed.

Lemma read_parts_ok (ps2 : list (string * (npy_ranges * array S))) : forall ps1 tl,
  NoDup (map fst (ps1 ++ ps2)) ->
  read_parts (flat_map (fun p => [MRanges (fst p) (fst (snd p)); MData (fst p) (snd (snd p))]) (ps1 ++ ps2) ++ tl)
             (map fst ps2) = Some ps2.
Proof.
  induction ps2 as [|p r IH]; intros ps1 tl Nd; simpl; auto.
  rewrite flat_map_app, <- app_assoc.
  assert (Ni : ~ In (fst p) (map fst ps1)).
  { rewrite map_app in Nd. apply NoDup_remove_2 in Nd. intros I. apply Nd, in_or_app; auto. }
  destruct (find_skip ps1 (fst p) Ni (flat_map (fun p0 => [MRanges (fst p0) (fst (snd p0)); MData (fst p0) (snd (snd p0))]) (p :: r) ++ tl)) as [E1 E2].
  rewrite E1, E2. cbn [flat_map app find_ranges find_data]. rewrite String.eqb_refl.
  specialize (IH (ps1 ++ [p]) tl). rewrite <- app_assoc in IH. specialize (IH Nd).
  rewrite flat_map_app, <- app_assoc in IH. cbn [flat_map app] in IH. rewrite IH.
  destruct p as [k [a b]]; auto.
Qed.

Lemma read_members (f : v1file S) : NoDup (map fst (v_parts f)) ->
  read_file (members f ++ [MDirectory]) = Some f.
Proof.
  intros Nd. unfold read_file, members. cbn [app]. rewrite last_last.
  pose proof (@read_parts_ok (v_parts f) [] [MDirectory] Nd) as E. cbn [app] in E. rewrite E.
  destruct f; auto.
Qed.

Lemma parts_keys (data : dict string (dict Z (array S))) : forall ps, parts_of data = Ok ps -> map fst ps = dkeys data.
Proof.
  induction data as [|[k st] r IH]; simpl; intros ps.
  - intros E; inversion E; auto.
  - destruct (concat (dvals st)); [discriminate|]. destruct (parts_of r) as [p'|e]; [|discriminate].
    cbn [rbind]. intros E; inversion E; subst. simpl. f_equal. auto.
Qed.

Lemma crash_safe (t : table S) s k fail :
  NoDup (dkeys (t_data t)) ->
  let s' := crash s (store_actions (serialize t) fail) k in
  fs_target s' = fs_target s \/
  (exists f l, serialize t = Ok f /\ fs_target s' = Some l /\ read_file l = Some f).
Proof.
  intros Nd s'. destruct (crash_target (serialize t) fail k s) as [E|(f & Ef & _ & E)]; [left; auto|right].
  exists f. eexists. split; auto. split; [exact E|]. apply read_members.
  unfold serialize in Ef. destruct (parts_of (t_data t)) as [ps|e] eqn:Ep; [|discriminate].
  cbn [rbind] in Ef. inversion Ef; subst f. simpl. rewrite (parts_keys _ Ep). auto.
Qed.

Lemma store_completes (t : table S) s f : serialize t = Ok f -> NoDup (dkeys (t_data t)) ->
  let acts := store_actions (serialize t) None in
  exists l, fs_target (crash s acts (List.length acts)) = Some l /\ read_file l = Some f /\
    fs_temp (crash s acts (List.length acts)) = None.
Proof.
  intros Ef Nd acts. unfold acts. rewrite Ef. unfold crash. rewrite firstn_all. cbn [store_actions fold_left].
  rewrite fold_left_app. destruct (exec_writes (members f) (act s ACreate)) as [_ E2].
  cbn [fold_left]. destruct (fold_left act (map AWrite (members f)) (act s ACreate)) as [tg tm md].
  cbn [fs_temp act option_map] in E2. subst tm. exists (members f ++ [MDirectory]). split; [reflexivity|]. split; [|reflexivity].
  apply read_members. unfold serialize in Ef. destruct (parts_of (t_data t)) as [ps|e] eqn:Ep; [|discriminate].
  cbn [rbind] in Ef. inversion Ef; subst f. simpl. rewrite (parts_keys _ Ep). auto.
Qed.
End Store.

From Verif Require Import MemSpec MemProofs MemRun V1Spec V1Proofs.
Section Reach.
Context {S : Type} `{Scalar S}.

Lemma NoDup_filter_map {A B} (f : A -> B) p (l : list A) : NoDup (map f l) -> NoDup (map f (filter p l)).
Proof.
  induction l as [|x l IH]; simpl; auto. intros Nd. inversion Nd as [|? ? Ni Nd']; subst.
  destruct (p x); simpl; auto. constructor; auto. intros I. apply Ni.
  apply in_map_iff in I as (y & E & I). apply filter_In in I as [I _]. rewrite <- E. apply in_map; auto.
Qed.

Lemma reach_keys cols lk smp ej ops maxlen :
  config_ok cols lk -> fresh_sampler smp -> fresh_ejector ej -> client_ok cols ops ->
  NoDup (dkeys (t_data (run (t_create cols lk maxlen smp ej) ops))).
Proof.
  intros C Fs Fe Co. destruct (run_create maxlen C Fs Fe Co) as (B & I & Sb & F1 & F2 & _).
  rewrite (data_shape I), F1. unfold dkeys. rewrite map_map. cbn [fst].
  apply NoDup_filter_map. apply (co_names C).
Qed.

Lemma crash_safe_reach cols lk smp ej ops maxlen :
  config_ok cols lk -> fresh_sampler smp -> fresh_ejector ej -> client_ok cols ops ->
  let t := run (t_create cols lk maxlen smp ej) ops in
  forall s fail k,
  let s' := crash s (store_actions (serialize t) fail) k in
  fs_target s' = fs_target s \/
  (exists f l, serialize t = Ok f /\ fs_target s' = Some l /\ read_file l = Some f).
Proof. intros C Fs Fe Co t s fail k. apply crash_safe. apply reach_keys; auto. Qed.

Lemma store_completes_reach cols lk smp ej ops maxlen f :
  config_ok cols lk -> fresh_sampler smp -> fresh_ejector ej -> client_ok cols ops ->
  let t := run (t_create cols lk maxlen smp ej) ops in
  serialize t = Ok f -> forall s,
  let acts := store_actions (serialize t) None in
  exists l, fs_target (crash s acts (List.length acts)) = Some l /\ read_file l = Some f /\
    fs_temp (crash s acts (List.length acts)) = None.
Proof. intros C Fs Fe Co t Ef s. apply store_completes; auto. apply reach_keys; auto. Qed.
End Reach.
