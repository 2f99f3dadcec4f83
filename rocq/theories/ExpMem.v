(** * ExpMem: what a memory with FIFO ejection accepts from a proxy (C149) *)
From Coq Require Import Lia.
From Verif Require Import Py PyLemmas MemModel MemSpec MemProofs MemRun MemSample MemSample2 AccProofs
  ProxyModel ProxySpec ProxyProofs ProxyAlign ProxyE2E ProxyMore LoaderModel LoaderProofs.
Open Scope string_scope.
Open Scope list_scope.
Open Scope Z_scope.
Set Implicit Arguments. Unset Strict Implicit.

Section P.
Context {S : Type} {HSc : Scalar S}.
Notation moment := (@moment S).

(** The operations on the table that come from a history suit the table. *)
Lemma sampling_of pc cols lk smp ej sch (h : list (pop S)) L ops : config_ok cols lk -> fresh_sampler smp -> fresh_ejector ej ->
  schema_ok (pc_terminal pc) sch -> layout cols lk (pc_terminal pc) sch -> agents_ok pc cols lk sch L h -> (1 <= L)%nat ->
  Forall no_clear ops ->
  (forall a, Forall2 (records (pc_terminal pc) lk) (added_by a (additions ops)) (filter (kept pc lk) (episodes [] (stream a h)))) ->
  sampling_ok cols lk smp ej ops L /\
  forall a s dr, In (a, s, dr) (additions ops) -> 0 <= a /\ (exists os rs dr', In (PAdd os rs dr') h /\ In a (dkeys os)) /\
    exists ms, In ms (episodes [] (stream a h)) /\ seq_len lk s = zlen ms - 1.
Proof.
  intros CO Fs Fe SO LA [AG1 AG2] HL Nc F.
  set (ut := pc_terminal pc) in *.
  assert (Hx : forall a s dr, In (a, s, dr) (additions ops) ->
     (0 <= a /\ exists os rs dr', In (PAdd os rs dr') h /\ In a (dkeys os)) /\ exists ms, In ms (episodes [] (stream a h)) /\ NoDup (dkeys s) /\ aligned ut sch s ms /\ proper ms /\
        Forall (sized cols) ms /\ Z.of_nat L <= zlen ms - 1 <= 2 ^ 53).
  { intros a s dr I. apply added_In in I. pose proof (F a) as Fa.
    destruct (Forall2_In_l _ Fa I) as (ms & Im & R). destruct (AG2 a) as [_ Ha]. cbv zeta in Ha.
    destruct (Ha ms Im) as (P & Cf & Sz & Ln). apply filter_In in Im as [Im _]. split.
    - destruct (stream_agent _ _ (episodes_nonempty _ _ _ _ Im)) as (os & rs & dr' & I1 & I2). split; [|exists os, rs, dr'; auto].
      rewrite Forall_forall in AG1. apply AG1 in I1. rewrite Forall_forall in I1. auto.
    - exists ms. split; auto. split; [apply R|]. split; auto.
      eapply proper_aligned; eauto. unfold names. destruct LA as (_ & L2 & _).
      apply in_or_app. right. rewrite app_assoc. apply in_or_app. auto. }
  split.
  - split; auto. split; auto. split; auto. split; [|split; auto].
    + split; [exact Nc|]. split.
      * rewrite adds_additions. apply Forall_map. apply Forall_forall. intros [[a s] dr] I. cbn [fst snd].
        destruct (Hx a s dr I) as (_ & ms & _ & N & A & _ & Sz & _). eapply al_seq_ok; eauto.
      * rewrite adds_additions, map_map. cbn [fst].
        rewrite <- (map_map (fun x : Z * sequence S * list draw => fst (fst x)) wrap_id).
        apply NoDup_map_inj.
        -- apply once_NoDup. intros a. pose proof (F a) as Fa. rewrite (Forall2_len Fa). apply AG2.
        -- intros x y Ix Iy Exy. apply in_map_iff in Ix as ([[a s] dr] & <- & Ix).
           apply in_map_iff in Iy as ([[a' s'] dr'] & <- & Iy). apply Hx in Ix as [[Hx1 _] _]. apply Hx in Iy as [[Hy1 _] _].
           cbn [fst] in *. unfold wrap_id in Exy.
           destruct (Z.ltb_spec a 0); [lia|]. destruct (Z.ltb_spec a' 0); lia.
    + rewrite adds_additions. apply Forall_map. apply Forall_forall. intros [[a s] dr] I. cbn [fst snd].
      destruct (Hx a s dr I) as (_ & ms & _ & N & A & P & Sz & Ln). split.
      * eapply al_episode_ok; eauto.
      * rewrite (al_lenkey LA A P). auto.
  - intros a s dr I. destruct (Hx a s dr I) as ([H1 H2] & ms & Im & N & A & P & _). split; auto. split; auto. exists ms. split; auto.
    apply (al_lenkey LA A P).
Qed.

Lemma client_app cols (a b : list (op S)) : client_ok cols (a ++ b) -> client_ok cols a.
Proof.
  intros (C1 & C2 & C3). rewrite adds_app in *. apply Forall_app in C1 as [C1 _]. apply Forall_app in C2 as [C2 _]. split; auto. split; auto.
  rewrite map_app in C3. clear -C3. revert C3. generalize (map fst (adds a)) (map fst (adds b)). intros l l'. induction l as [|x l IH]; intros C3; constructor; cbn in C3; inversion C3 as [|? ? N1 N2]; subst; auto. intros Ix. apply N1. apply in_or_app; auto.
Qed.

(** What is submitted, with the draws of the ejector. *)
Fixpoint given (lk : string) (eps : dict Z (episode S)) (draws : list (list draw)) : list (Z * sequence S * list draw) :=
  match eps with [] => [] | (a, e) :: r => (a, touch e lk, hd [] draws) :: given lk r (tl draws) end.
Lemma given_fst lk : forall eps draws, map fst (given lk eps draws) = map (fun x => (fst x, touch (snd x) lk)) eps.
Proof. induction eps as [|[a e] r IH]; intros draws; cbn [given map fst snd]; [auto|]. rewrite IH. reflexivity. Qed.

Lemma submit_accepts cols lk maxlen smp : config_ok cols lk -> fresh_sampler smp -> forall eps ops draws,
  client_ok cols (ops ++ map as_op (given lk eps draws)) ->
  Forall (fun x => seq_len lk (snd (fst x)) <= maxlen) (given lk eps draws) ->
  let t := run (t_create cols lk maxlen smp (EFifo fifo_init)) ops in
  submit t eps draws = (run t (map as_op (given lk eps draws)), Ok tt).
Proof.
  intros CO Fs. induction eps as [|[a e] r IH]; intros ops draws Co Fl t; cbn [submit given map]; [reflexivity|].
  cbn [given map] in Co, Fl. inversion Fl as [|? ? F1 F2]; subst. cbn [fst snd] in F1.
  set (x := as_op (a, touch e lk, hd [] draws)) in *.
  assert (Ex : ops ++ x :: map as_op (given lk r (tl draws)) = (ops ++ [x]) ++ map as_op (given lk r (tl draws))) by (rewrite <- app_assoc; reflexivity).
  rewrite Ex in Co. pose proof (client_app Co) as Co1.
  destruct (run_create maxlen CO Fs (fresh_EFifo) (client_app Co1)) as (B & I & Sb & T1 & T2 & T3 & _). fold t in T2, T3. rewrite T2.
  assert (Ok1 : snd (add_sequence t a (touch e lk) (hd [] draws)) = Ok tt).
  { apply (@acc_fifo S HSc cols lk maxlen smp ops a (touch e lk) (hd [] draws) CO Fs Co1). fold t. lia. }
  destruct (add_sequence t a (touch e lk) (hd [] draws)) as [t1 y] eqn:Ea. cbn [snd] in Ok1. subst y.
  assert (Et : t1 = run (t_create cols lk maxlen smp (EFifo fifo_init)) (ops ++ [x])).
  { unfold run. rewrite fold_left_app. cbn [fold_left]. fold (run (t_create cols lk maxlen smp (EFifo fifo_init)) ops). fold t. unfold x. cbn [as_op step fst snd]. rewrite Ea. reflexivity. }
  assert (Er : run t (x :: map as_op (given lk r (tl draws))) = run t1 (map as_op (given lk r (tl draws)))).
  { change (run t (x :: ?l)) with (run (step t x) l). unfold x. cbn [as_op step fst snd]. rewrite Ea. reflexivity. }
  rewrite Er. rewrite Et at 1. rewrite (IH (ops ++ [x]) (tl draws) Co F2). rewrite Et. reflexivity.
Qed.

(** Something is stored. *)
Definition stocked (t : table S) : Prop := exists b, holds t b /\ b <> [].

Lemma holds_same cols lk (t : table S) B b : config_ok cols lk -> Inv t B -> t_cols t = cols -> t_lenkey t = lk -> holds t b -> b <> [] -> B <> [].
Proof.
  intros CO I F1 F2 Hb Nb ->. destruct (co_lenkey CO) as (c & Ic & En & Bc).
  assert (Is : In c (storage_cols (t_cols t))). { apply storage_In. rewrite F1. split; auto. unfold is_virtual. rewrite Bc. auto. }
  pose proof (Hb c Is) as E1. pose proof (inv_holds I c Is) as E2. rewrite E1 in E2. injection E2 as E3. destruct b; [congruence|discriminate].
Qed.

Lemma stocked_more cols lk maxlen smp ej (ops more : list (op S)) : config_ok cols lk -> fresh_sampler smp -> fresh_ejector ej -> client_ok cols (ops ++ more) ->
  stocked (run (t_create cols lk maxlen smp ej) ops) -> stocked (run (t_create cols lk maxlen smp ej) (ops ++ more)).
Proof.
  intros CO Fs Fe Co (b & Hb & Nb). destruct (run_create maxlen CO Fs Fe (client_app Co)) as (B & I & Sb & F1 & F2 & _).
  pose proof (holds_same CO I F1 F2 Hb Nb) as NB. destruct Co as (C1 & C2 & C3). rewrite adds_app in C2, C3.
  apply Forall_app in C1 as [_ C1]. apply Forall_app in C2 as [_ C2].
  assert (Er : run (t_create cols lk maxlen smp ej) (ops ++ more) = run (run (t_create cols lk maxlen smp ej) ops) more) by (unfold run; apply fold_left_app).
  destruct (@run_ne S HSc more (run (t_create cols lk maxlen smp ej) ops) B I C1) as (B1 & I1 & S1 & Ne1); auto.
  - rewrite F1. exact C2.
  - eapply sublist_NoDup; [|exact C3]. apply sublist_map. apply sublist_app; [auto|apply sublist_refl].
  - exists B1. rewrite Er. split; auto. apply (inv_holds I1).
Qed.

Lemma history_ops pc cols lk maxlen smp ej (h : list (pop S)) p : batches_ok h -> prun pc (px_new (t_create cols lk maxlen smp ej)) h = (p, Ok tt) ->
  (forall o, In (PUse o) h -> o <> OClear) ->
  exists ops, px_table p = run (t_create cols lk maxlen smp ej) ops /\ Forall no_clear ops /\
    (forall a, Forall2 (records (pc_terminal pc) lk) (added_by a (additions ops)) (filter (kept pc lk) (episodes [] (stream a h)))) /\
    store_rel (pc_terminal pc) (px_store p) (fun a => running [] (stream a h)).
Proof.
  intros Hb E Nc. destruct (@builder S HSc pc lk h Hb (px_new (t_create cols lk maxlen smp ej)) p (fun _ => [])) as (ops & A1 & A2 & A3 & A4); auto.
  { split; [constructor|]. cbn. auto. }
  exists ops. split; auto. split; [|auto]. apply Forall_forall. intros o Io. destruct (is_add o) eqn:Ea; [destruct o; discriminate|].
  assert (In o (uses h)) as Iu. { rewrite <- A2. apply filter_In. rewrite Ea. auto. }
  unfold uses in Iu. apply in_flat_map in Iu as (x & Ix & Ox). destruct x as [|o']; [destruct Ox|]. destruct Ox as [->|[]].
  exact (Nc _ Ix).
Qed.

Lemma stream_snoc a (h : list (pop S)) os rs dr : stream a (h ++ [PAdd os rs dr]) = stream a h ++ now a os rs.
Proof. unfold stream, now. rewrite flat_map_app. cbn [flat_map]. rewrite app_nil_r. reflexivity. Qed.

Lemma add_accepts pc cols lk maxlen smp sch (h : list (pop S)) p os rs dr L : config_ok cols lk -> fresh_sampler smp ->
  schema_ok (pc_terminal pc) sch -> layout cols lk (pc_terminal pc) sch -> (1 <= L)%nat ->
  batches_ok (h ++ [PAdd os rs dr]) -> agents_ok pc cols lk sch L (h ++ [PAdd os rs dr]) ->
  prun pc (px_new (t_create cols lk maxlen smp (EFifo fifo_init))) h = (p, Ok tt) -> batch_fits p os rs ->
  (forall a ms, In ms (episodes [] (stream a (h ++ [PAdd os rs dr]))) -> zlen ms - 1 <= maxlen) ->
  exists p', proxy_add pc p os rs dr = (p', Ok tt) /\ (stocked (px_table p) -> stocked (px_table p')).
Proof.
  intros CO Fs SO LA HL BO AO E Bf Hm. set (T0 := t_create cols lk maxlen smp (EFifo fifo_init)) in *.
  pose proof BO as BO'. apply Forall_app in BO as [BO1 BO2]. apply Forall_inv in BO2. destruct BO2 as (H1 & H2 & H3).
  pose proof (proj1 AO) as AG1. apply Forall_app in AG1 as [AG1 _].
  assert (Nc : forall o, In (PUse o) h -> o <> OClear). { intros o Io. rewrite Forall_forall in AG1. apply (AG1 _ Io). }
  destruct (history_ops BO1 E Nc) as (ops & Et & No & F & SR). fold T0 in Et.
  assert (CT : t_cols (px_table p) = cols /\ t_lenkey (px_table p) = lk).
  { assert (AGh : agents_ok pc cols lk sch L h).
    { split; auto. intros a st0. pose proof (proj2 AO a) as QQ. cbv zeta in QQ. destruct QQ as [Q1 Q2]. rewrite stream_snoc, episodes_app, filter_app in Q1, Q2.
      split; [rewrite app_length in Q1; unfold st0; lia|]. intros ms Im. apply Q2. apply in_or_app. auto. }
    destruct (sampling_of CO Fs fresh_EFifo SO LA AGh HL No F) as [(_ & _ & _ & Co & _) _].
    destruct (run_create maxlen CO Fs fresh_EFifo Co) as (B & I & Sb & F1 & F2 & _). rewrite Et. auto. }
  destruct CT as [CT1 CT2].
  unfold proxy_add. rewrite CT2. pose proof (@collect_fits S HSc pc lk rs os (px_store p) (px_done p) [] H1 Bf) as Cf.
  destruct (collect pc lk rs (px_store p, px_done p, []) os) as [[[store seen] comp] x] eqn:Ecol. cbn [snd] in Cf. assert (Ex : x = Ok tt). { etransitivity; [|exact Cf]. symmetry. exact (f_equal snd Ecol). } subst x.
  destruct (@collect_ok S HSc pc lk rs H3 os (px_store p) (px_done p) [] _ (fun a => running [] (stream a h)) SR H1 H2 ltac:(intros a []) Ecol) as (new & N1 & N2 & N3).
  cbn [snd app] in N1. subst comp.
  set (G := given lk new dr).
  assert (Fg : forall a, Forall2 (records (pc_terminal pc) lk) (added_by a (additions (ops ++ map as_op G)))
                 (filter (kept pc lk) (episodes [] (stream a (h ++ [PAdd os rs dr]))))).
  { intros a. rewrite stream_snoc, episodes_app, filter_app. rewrite additions_app, additions_as_op. unfold added_by. rewrite filter_app, map_app.
    apply Forall2_app; [exact (F a)|]. fold (added_by a G). rewrite (@added_mine S a lk G new (given_fst lk new dr)). apply Forall2_touch. apply N3. }
  assert (Nog : Forall no_clear (ops ++ map as_op G)).
  { apply Forall_app. split; auto. apply Forall_map. apply Forall_forall. intros [[a s] d] _. discriminate. }
  destruct (sampling_of CO Fs fresh_EFifo SO LA AO HL Nog Fg) as [(_ & _ & _ & Co & _) Ad].
  assert (Fl : Forall (fun x => seq_len lk (snd (fst x)) <= maxlen) G).
  { apply Forall_forall. intros [[a s] d] Ig. cbn [fst snd]. destruct (Ad a s d) as (_ & _ & ms & Im & El).
    - rewrite additions_app, additions_as_op. apply in_or_app. auto.
    - rewrite El. apply (Hm a ms Im). }
  pose proof (submit_accepts CO Fs Co Fl) as Sub. cbv zeta in Sub. fold T0 in Sub. rewrite <- Et in Sub. rewrite Sub.
  eexists. split; [reflexivity|]. cbn [px_table]. intros St. rewrite Et in *. 
  assert (Er : run (run T0 ops) (map as_op G) = run T0 (ops ++ map as_op G)) by (unfold run; symmetry; apply fold_left_app).
  fold G. rewrite Er. apply stocked_more; auto using fresh_EFifo.
Qed.

Lemma stocked_sample pc cols lk maxlen smp ej sch (h : list (pop S)) p L count draws : config_ok cols lk -> fresh_sampler smp -> fresh_ejector ej ->
  schema_ok (pc_terminal pc) sch -> layout cols lk (pc_terminal pc) sch -> (1 <= L)%nat -> batches_ok h -> agents_ok pc cols lk sch L h ->
  prun pc (px_new (t_create cols lk maxlen smp ej)) h = (p, Ok tt) -> stocked (px_table p) -> stocked (fst (t_sample (px_table p) count L draws)).
Proof.
  intros CO Fs Fe SO LA HL BO AO E (b & Hb & Nb).
  assert (Nc : forall o, In (PUse o) h -> o <> OClear). { intros o Io. pose proof (proj1 AO) as A. rewrite Forall_forall in A. apply (A _ Io). }
  destruct (history_ops BO E Nc) as (ops & Et & No & F & SR).
  destruct (sampling_of CO Fs Fe SO LA AO HL No F) as [SOk Ad].
  destruct SOk as (_ & _ & _ & Co & _).
    pose proof (@stocked_more cols lk maxlen smp ej ops [OSample count L draws] CO Fs Fe) as Q. unfold run in Q. rewrite fold_left_app in Q. cbn [fold_left step] in Q.
    rewrite Et. apply Q.
    + destruct Co as (C1 & C2 & C3). split; [apply Forall_app; split; auto; constructor; [discriminate|constructor]|]. rewrite adds_app. cbn [adds]. rewrite app_nil_r. auto.
    + fold (run (t_create cols lk maxlen smp ej) ops). rewrite <- Et. exists b. auto.
Qed.

Lemma sample_hist pc cols lk maxlen smp ej sch (h : list (pop S)) p L count draws : config_ok cols lk -> fresh_sampler smp -> fresh_ejector ej ->
  schema_ok (pc_terminal pc) sch -> layout cols lk (pc_terminal pc) sch -> (1 <= L)%nat -> batches_ok h -> agents_ok pc cols lk sch L h ->
  prun pc (px_new (t_create cols lk maxlen smp ej)) h = (p, Ok tt) -> stocked (px_table p) ->
  (forall os rs dr a, In (PAdd os rs dr) h -> In a (dkeys os) -> a < 2 ^ 63) ->
  (forall e, snd (t_sample (px_table p) count L draws) = Err e -> e = Diverges) /\ stocked (fst (t_sample (px_table p) count L draws)).
Proof.
  intros CO Fs Fe SO LA HL BO AO E (b & Hb & Nb) Hid.
  assert (Nc : forall o, In (PUse o) h -> o <> OClear). { intros o Io. pose proof (proj1 AO) as A. rewrite Forall_forall in A. apply (A _ Io). }
  destruct (history_ops BO E Nc) as (ops & Et & No & F & SR).
  destruct (sampling_of CO Fs Fe SO LA AO HL No F) as [SOk Ad]. split.
  - intros e He. rewrite Et in *. eapply sample_total; eauto.
    + rewrite adds_additions. apply Forall_map. apply Forall_forall. intros [[a s] dr] I. cbn [fst].
      destruct (Ad a s dr I) as (H0 & (os & rs & dr' & I1 & I2) & _). pose proof (Hid _ _ _ _ I1 I2). unfold wrap_id. destruct (Z.ltb_spec a 0); lia.
    + rewrite adds_additions. apply Forall_map. apply Forall_forall. intros [[a s] dr] I. cbn [fst].
      destruct (Ad a s dr I) as (H0 & _). unfold wrap_id. destruct (Z.ltb_spec a 0); lia.
  - eapply stocked_sample; eauto. exists b. auto.
Qed.

Lemma ready_stocked pc cols lk maxlen smp ej sch (h : list (pop S)) p L : config_ok cols lk -> fresh_sampler smp -> fresh_ejector ej ->
  schema_ok (pc_terminal pc) sch -> layout cols lk (pc_terminal pc) sch -> (1 <= L)%nat -> batches_ok h -> agents_ok pc cols lk sch L h ->
  prun pc (px_new (t_create cols lk maxlen smp ej)) h = (p, Ok tt) -> 0 < t_size (px_table p) -> stocked (px_table p).
Proof.
  intros CO Fs Fe SO LA HL BO AO E Hz.
  assert (Nc : forall o, In (PUse o) h -> o <> OClear). { intros o Io. pose proof (proj1 AO) as A. rewrite Forall_forall in A. apply (A _ Io). }
  destruct (history_ops BO E Nc) as (ops & Et & No & F & SR).
  destruct (sampling_of CO Fs Fe SO LA AO HL No F) as [(_ & _ & _ & Co & _) _].
  destruct (run_create maxlen CO Fs Fe Co) as (B & I & Sb & F1 & F2 & _). rewrite Et in *. exists B. split; [apply (inv_holds I)|].
  intros ->. unfold t_size in Hz. rewrite (inv_total I) in Hz. cbn in Hz. lia.
Qed.
End P.
