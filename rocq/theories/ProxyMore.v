(** * ProxyMore: restarts, unknown agents and errors (C30 - C32). *)
From Verif Require Import Py PyLemmas MemModel MemSpec MemProofs MemRun MemSample
  ProxyModel ProxySpec ProxyProofs ProxyAlign ProxyE2E.
Open Scope string_scope.
Open Scope list_scope.
Open Scope Z_scope.
Set Implicit Arguments.

Section More.
Context {S : Type} `{Scalar S}.
Notation moment := (@moment S).

(** ** C30 *)
Lemma unknown_final pc (p : proxy S) a o rs dr : dget (px_store p) a = None ->
  is_final (o_state o) = true -> dget (o_rewards o) "reward" <> None ->
  exists p', proxy_add pc p [(a, o)] rs dr = (p', Ok tt) /\
    px_store p' = px_store p /\ px_table p' = px_table p.
Proof.
  intros N F R. unfold proxy_add. cbn [collect]. unfold collect_one.
  assert (Ei : is_initial (o_state o) = false) by (destruct (o_state o); auto; discriminate).
  rewrite Ei, F, N. destruct (dget (o_rewards o) "reward"); [|congruence].
  cbn [submit]. eexists. split; [reflexivity|]. auto.
Qed.

Lemma stored_count pc (t0 : table S) h p : batches_ok h -> prun pc (px_new t0) h = (p, Ok tt) ->
  exists ops, px_table p = run t0 ops /\
    forall a, List.length (added_by a (additions ops)) =
              List.length (filter (kept pc (t_lenkey t0)) (episodes [] (stream a h))).
Proof.
  intros B E. destruct (builder_new _ _ B E) as (ops & R & _ & F). exists ops. split; auto.
  intros a. eapply Forall2_len. apply F.
Qed.

Lemma collect_one_store pc lk rs store seen comp a o st' x : collect_one pc lk rs (store, seen, comp) a o = (st', x) ->
  forall b, b <> a -> dget (fst (fst st')) b = dget store b.
Proof.
  unfold collect_one. intros E b Hb.
  destruct (if is_initial (o_state o) then _ else _) as [d|e]; [|inversion E; auto].
  destruct (is_final (o_state o)).
  - destruct (dget store a); inversion E; cbn [fst]; auto. apply dget_ddel_neq; auto.
  - destruct (dget rs a); inversion E; cbn [fst]; auto. apply dget_dset_neq; auto.
Qed.

Lemma collect_fits pc lk rs os : forall store seen comp, NoDup (dkeys os) ->
  Forall (fun x => let '(a, o) := x in
    match o_state o with
    | INITIAL => dget store a = None /\ dget rs a <> None
    | RUNNING => dget (o_rewards o) "reward" <> None /\ dget rs a <> None
    | _ => dget (o_rewards o) "reward" <> None
    end) os ->
  snd (collect (S:=S) pc lk rs (store, seen, comp) os) = Ok tt.
Proof.
  induction os as [|[a o] r IH]; intros store seen comp N F; cbn [collect]; auto.
  inversion N as [|? ? Na N']; subst. inversion F as [|? ? Fo F']; subst.
  destruct (collect_one pc lk rs (store, seen, comp) a o) as [st' x] eqn:E.
  assert (Ex : x = Ok tt).
  { unfold collect_one in E. destruct (o_state o) eqn:Es; cbn [is_initial is_final] in E.
    - destruct Fo as [F1 F2]. destruct (dget (o_rewards o) "reward"); [|congruence].
      destruct (dget rs a); [|congruence]. inversion E; auto.
    - destruct (dget (o_rewards o) "reward"); [|congruence]. destruct (dget store a); inversion E; auto.
    - destruct (dget (o_rewards o) "reward"); [|congruence]. destruct (dget store a); inversion E; auto.
    - destruct Fo as [F1 F2]. unfold dmem in E. rewrite F1 in E. cbn in E.
      destruct (dget rs a); [|congruence]. inversion E; auto. }
  subst x. pose proof (@collect_one_store _ _ _ _ _ _ _ _ _ _ E) as St.
  destruct st' as [[store' seen'] comp']. cbn [fst] in St. apply IH; auto.
  apply Forall_forall. intros [b o'] I. rewrite Forall_forall in F'. specialize (F' _ I). cbv beta iota in F'.
  assert (b <> a). { intros ->. apply Na. change a with (fst (a, o')). apply in_map. auto. }
  rewrite (St b) by auto. auto.
Qed.

Lemma submit_err eps : forall (t : table S) draws e, snd (submit t eps draws) = Err e ->
  exists l a s d, snd (add_sequence (run t (map as_op l)) a s d) = Err e.
Proof.
  induction eps as [|[a s] r IH]; intros t draws e E; cbn [submit] in E; [discriminate|].
  destruct (add_sequence t a (touch s (t_lenkey t)) (hd [] draws)) as [t1 [u|x]] eqn:E1.
  - destruct (IH _ _ _ E) as (l & a' & s' & d & El).
    exists ((a, touch s (t_lenkey t), hd [] draws) :: l), a', s', d.
    cbn [map]. change (run t (?x :: ?y)) with (run (step t x) y). cbn [as_op step fst snd]. rewrite E1. auto.
  - inversion E; subst. exists [], a, (touch s (t_lenkey t)), (hd [] draws). cbn [map run fold_left]. unfold run. cbn. rewrite E1. auto.
Qed.

(** Only the memory itself can refuse a batch that respects the protocol. *)
Lemma fits_ok pc (p : proxy S) os rs dr e : NoDup (dkeys os) -> batch_fits p os rs ->
  snd (proxy_add pc p os rs dr) = Err e ->
  exists l a s d, snd (add_sequence (run (px_table p) (map as_op l)) a s d) = Err e.
Proof.
  intros N F E. unfold proxy_add in E.
  pose proof (@collect_fits pc (t_lenkey (px_table p)) rs os (px_store p) (px_done p) [] N F) as C.
  destruct (collect _ _ _ _ _) as [[[store seen] comp] x]. cbn [snd] in C. subst x.
  apply (@submit_err comp (px_table p) dr).
  destruct (submit (px_table p) comp dr) as [t' y]. auto.
Qed.

(** ** C31 *)
Lemma extends_refl (e : episode S) : extends e e.
Proof. intros k. exists []. rewrite app_nil_r. auto. Qed.
Lemma extends_trans (a b c : episode S) : extends a b -> extends b c -> extends a c.
Proof. intros E1 E2 k. destruct (E1 k) as [l El]. destruct (E2 k) as [l' El']. exists (l ++ l'). rewrite El', El, app_assoc. auto. Qed.
Lemma extends_append d : forall e : episode S, extends e (ep_append e d).
Proof.
  induction d as [|[k v] r IH]; intros e; cbn [ep_append fold_left]; [apply extends_refl|].
  eapply extends_trans; [|apply IH]. intros k'. unfold dget_default at 1. cbn [fst snd].
  destruct (string_dec k' k) as [->|Ne].
  - rewrite dget_dset_eq. eexists. reflexivity.
  - rewrite dget_dset_neq by auto. exists []. rewrite app_nil_r. reflexivity.
Qed.

Lemma collect_keeps pc lk rs os : Forall (fun x => is_final (o_state (snd x)) = false) os ->
  forall store seen comp st' x, collect (S:=S) pc lk rs (store, seen, comp) os = (st', x) ->
  snd st' = comp /\
  forall b e, dget store b = Some e -> exists e', dget (fst (fst st')) b = Some e' /\ extends e e'.
Proof.
  induction 1 as [|[a o] r Fo _ IH]; intros store seen comp st' x E; cbn [collect] in E.
  - inversion E; subst. split; auto. intros b e Eb. exists e. split; auto. apply extends_refl.
  - cbn [snd] in Fo. destruct (collect_one pc lk rs (store, seen, comp) a o) as [st1 x1] eqn:E1.
    assert (Q : snd st1 = comp /\ forall b e, dget store b = Some e -> exists e', dget (fst (fst st1)) b = Some e' /\ extends e e').
    { unfold collect_one in E1. rewrite Fo in E1.
      assert (Triv : forall b e, dget store b = Some e -> exists e', dget store b = Some e' /\ extends e e').
      { intros b e Eb. exists e. split; auto. apply extends_refl. }
      destruct (if is_initial (o_state o) then _ else _) as [d|e]; [|inversion E1; auto].
      destruct (dget rs a); inversion E1; cbn [fst snd]; auto. split; auto. intros b e Eb.
      destruct (Z.eqb_spec b a) as [Eba|Ne].
      - rewrite Eba in *. rewrite dget_dset_eq. eexists. split; [reflexivity|].
        unfold dget_default. rewrite Eb. apply extends_append.
      - rewrite dget_dset_neq by auto. eauto. }
    destruct st1 as [[store1 seen1] comp1]. cbn [fst snd] in Q. destruct Q as [Q1 Q2]. subst comp1.
    destruct x1 as [u|er].
    + destruct (IH _ _ _ _ _ E) as [I1 I2]. split; auto. intros b e Eb. destruct (Q2 b e Eb) as (e1 & E2 & X1).
      destruct (I2 b e1 E2) as (e2 & E3 & X2). exists e2. split; auto. eapply extends_trans; eauto.
    + inversion E; subst. auto.
Qed.

Lemma error_keeps pc (p : proxy S) os rs dr p' er : Forall (fun x => is_final (o_state (snd x)) = false) os ->
  proxy_add pc p os rs dr = (p', Err er) ->
  px_table p' = px_table p /\
  forall b e, dget (px_store p) b = Some e -> exists e', dget (px_store p') b = Some e' /\ extends e e'.
Proof.
  intros F E. unfold proxy_add in E.
  destruct (collect pc (t_lenkey (px_table p)) rs (px_store p, px_done p, []) os) as [st x] eqn:Ec.
  destruct (@collect_keeps _ _ _ _ F _ _ _ _ _ Ec) as [K1 K2].
  destruct st as [[store seen] comp]. cbn [fst snd] in *. destruct x as [u|e].
  - subst comp. cbn [submit] in E. inversion E.
  - inversion E; subst. cbn [px_table px_store]. auto.
Qed.

(** ** C32 *)
Lemma prun_app pc (h h' : list (pop S)) p p' : prun pc p (h ++ h') = (p', Ok tt) ->
  exists p1, prun pc p h = (p1, Ok tt) /\ prun pc p1 h' = (p', Ok tt).
Proof.
  revert p. induction h as [|o r IH]; intros p E; cbn [app prun] in *; [eauto|].
  destruct (pstep pc p o) as [p1 [u|e]]; [|discriminate]. auto.
Qed.

Lemma stream_split a (h : list (pop S)) : forall x m y, stream a h = x ++ m :: y ->
  exists h1 os rs dr h2, h = h1 ++ PAdd os rs dr :: h2 /\ stream a h1 = x /\ dget os a = Some (fst m).
Proof.
  induction h as [|o h IH]; intros x m y E.
  - destruct x; discriminate.
  - rewrite stream_cons in E.
    destruct (stream a [o]) as [|m0 l] eqn:Eo.
    + destruct (IH _ _ _ E) as (h1 & os & rs & dr & h2 & -> & E1 & E2).
      exists (o :: h1), os, rs, dr, h2. split; auto. split; auto. rewrite stream_cons, Eo. auto.
    + destruct o as [os rs dr|o]; [|discriminate]. unfold stream in Eo. cbn [flat_map] in Eo. rewrite app_nil_r in Eo.
      destruct (dget os a) as [ob|] eqn:Ed; [|discriminate]. inversion Eo; subst m0 l. cbn [app] in E.
      destruct x as [|m1 x]; cbn [app] in E.
      * inversion E; subst m y. exists [], os, rs, dr, h. split; auto.
      * injection E as E1 E2. destruct (IH _ _ _ E2) as (h1 & os' & rs' & dr' & h2 & -> & F1 & F2).
        exists (PAdd os rs dr :: h1), os', rs', dr', h2. split; auto. split; auto.
        rewrite stream_cons. unfold stream at 1. cbn [flat_map]. rewrite Ed. cbn [app]. rewrite F1, E1. auto.
Qed.

Lemma collect_initial pc lk rs a o os : forall store seen comp st', NoDup (dkeys os) -> In (a, o) os ->
  is_initial (o_state o) = true -> collect (S:=S) pc lk rs (store, seen, comp) os = (st', Ok tt) ->
  dget store a = None.
Proof.
  induction os as [|[b ob] r IH]; intros store seen comp st' N I Hi E; [destruct I|].
  inversion N as [|? ? Nb N']; subst. cbn [collect] in E.
  destruct (collect_one pc lk rs (store, seen, comp) b ob) as [st1 [u|e]] eqn:E1; [|discriminate].
  destruct I as [I|I].
  - inversion I; subst. unfold collect_one in E1. rewrite Hi in E1. unfold dmem in E1.
    destruct (dget store a); auto. discriminate.
  - pose proof (@collect_one_store _ _ _ _ _ _ _ _ _ _ E1) as St. destruct st1 as [[store1 seen1] comp1].
    cbn [fst] in St. rewrite <- St; [eapply IH; eauto|].
    intros ->. apply Nb. change b with (fst (b, o)). apply in_map. auto.
Qed.

(** An INITIAL observation is only accepted when no episode is running. *)
Lemma initial_fresh pc (t0 : table S) h p a x m y : batches_ok h ->
  prun pc (px_new t0) h = (p, Ok tt) -> stream a h = x ++ m :: y ->
  is_initial (o_state (fst m)) = true -> running [] x = [].
Proof.
  intros B E Es Hi. destruct (stream_split _ _ _ _ _ Es) as (h1 & os & rs & dr & h2 & -> & E1 & E2).
  apply Forall_app in B as [B1 B2]. inversion B2 as [|? ? Hb _]; subst. destruct Hb as (N & _).
  destruct (prun_app _ _ _ _ E) as (p1 & R1 & R2).
  destruct (@builder _ _ pc (t_lenkey t0) h1 B1 (px_new t0) p1 (fun _ => [])) as (ops & A1 & A2 & A3 & A4 & A5); auto.
  { split; [constructor|]. cbn. auto. }
  cbn [prun pstep] in R2. unfold proxy_add in R2.
  destruct (collect pc (t_lenkey (px_table p1)) rs (px_store p1, px_done p1, []) os) as [[[store seen] comp] [u|e]] eqn:Ec;
    [|discriminate]. destruct u.
  apply dget_In in E2. specialize (A5 a). cbv beta in A5.
  rewrite (@collect_initial _ _ _ _ _ _ _ _ _ _ N E2 Hi Ec) in A5. auto.
Qed.

Lemma episodes_middle (st : list moment) : forall cur ms,
  (forall x m y, st = x ++ m :: y -> is_initial (o_state (fst m)) = true -> running cur x = []) ->
  Forall (fun m => is_initial (o_state (fst m)) = false /\ is_final (o_state (fst m)) = false) (tl cur) ->
  (match cur with [] => True | m :: _ => is_final (o_state (fst m)) = false end) ->
  In ms (episodes cur st) ->
  exists first middle last, ms = first :: middle ++ [last] /\
    Forall (fun m => is_initial (o_state (fst m)) = false /\ is_final (o_state (fst m)) = false) middle /\
    is_final (o_state (fst last)) = true.
Proof.
  induction st as [|m r IH]; intros cur ms Hs Ft Fh I; cbn [episodes] in I; [destruct I|].
  assert (Hs' : forall x m0 y, r = x ++ m0 :: y -> is_initial (o_state (fst m0)) = true ->
     running (if is_final (o_state (fst m)) then [] else cur ++ [m]) x = []).
  { intros x m0 y -> Hm. specialize (Hs (m :: x) m0 y eq_refl Hm). cbn [running] in Hs.
    destruct (is_final (o_state (fst m))); auto. }
  destruct (is_final (o_state (fst m))) eqn:Ef.
  - destruct cur as [|f0 cur'] eqn:Ec.
    + eapply IH; eauto.
    + destruct I as [<-|I].
      * exists f0, cur', m. auto.
      * apply (IH []); auto. constructor.
  - apply (IH (cur ++ [m])); auto.
    + destruct cur as [|f0 cur']; [constructor|]. cbn [app tl] in *. apply Forall_app. split; auto.
      constructor; auto. split; auto. destruct (is_initial (o_state (fst m))) eqn:Ei; auto.
      specialize (Hs [] m r eq_refl Ei). discriminate.
    + destruct cur; auto.
Qed.

Lemma initial_proper pc (t0 : table S) h p a ms first : batches_ok h ->
  prun pc (px_new t0) h = (p, Ok tt) -> In ms (episodes [] (stream a h)) ->
  hd_error ms = Some first -> o_state (fst first) = INITIAL -> proper ms.
Proof.
  intros B E I Hh Hi.
  destruct (@episodes_middle (stream a h) [] ms) as (f0 & mid & la & -> & F & L); auto.
  { intros x m y Es Em. eapply initial_fresh; eauto. }
  { constructor. }
  cbn in Hh. inversion Hh; subst. exists first, mid, la. split; auto. split; auto. split; auto.
  eapply Forall_impl; [|exact F]. cbv beta. intros m [F1 F2]. destruct (o_state (fst m)); auto; discriminate.
Qed.

Lemma rewards_aligned pc (t0 : table S) h p sch : batches_ok h -> schema_ok (pc_terminal pc) sch ->
  In (t_lenkey t0) (names (pc_terminal pc) sch) ->
  prun pc (px_new t0) h = (p, Ok tt) ->
  (forall a ms, In ms (episodes [] (stream a h)) -> Forall (conforms sch) ms /\
     exists first, hd_error ms = Some first /\ o_state (fst first) = INITIAL) ->
  exists ops, px_table p = run t0 ops /\
    forall a s d k, In (a, s, d) (additions ops) -> In k (sc_resp sch) ->
      seq_len "rewards" s = seq_len k s.
Proof.
  intros B SO Hlk E Hm. destruct (builder_new _ _ B E) as (ops & R & _ & F). exists ops. split; auto.
  intros a s d k Ia Ik. apply added_In in Ia. destruct (F a) as [Fa _].
  destruct (Forall2_In_l _ Fa Ia) as (ms & Im & Rs). apply filter_In in Im as [Im _].
  destruct (Hm a ms Im) as (Cf & first & Hh & Hi).
  pose proof (@initial_proper _ _ _ _ _ _ _ B E Im Hh Hi) as P.
  pose proof (proper_aligned SO Rs P Cf Hlk) as A.
  rewrite (al_len_act "rewards" A P), (al_len_act k A P); auto; apply in_or_app; simpl; auto.
Qed.
End More.
