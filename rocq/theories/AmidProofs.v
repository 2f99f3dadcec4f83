(** * AmidProofs: an add that other threads see in progress (proofs for C156) *)
From Coq Require Import Lia.
From Verif Require Import Py PyLemmas MemModel MemSpec ProxyModel ProxySpec ProxyProofs ProxyMore ProxyE2E AmidModel AmidSpec.
Set Implicit Arguments. Unset Strict Implicit.
Open Scope list_scope.
Open Scope Z_scope.

Section T.
Context {S : Type} {HS : Scalar S}.
Implicit Types (t : table S) (p : proxy S) (os : dict Z (obs S)).

Lemma prun_join pc (h : list (pop S)) : forall h' p p1, prun pc p h = (p1, Ok tt) -> prun pc p (h ++ h') = prun pc p1 h'.
Proof.
  induction h as [|o h IH]; intros h' p p1 E; cbn in *; [congruence|].
  destruct (pstep pc p o) as [p2 [[]|]]; [|discriminate]. apply IH. exact E.
Qed.
Lemma lk_step t o : t_lenkey (step t o) = t_lenkey t.
Proof. destruct o; try (apply step_lk; reflexivity). apply add_lk. Qed.
Lemma uses_lk us : forall t t' f, use_all t us = (t', f) -> t_lenkey t' = t_lenkey t.
Proof.
  induction us as [|u us IH]; intros t t' f E; cbn in E; [congruence|].
  destruct (use_all (step t u) us) as [t1 f1] eqn:E1. injection E as <- <-. rewrite (IH _ _ _ E1). apply lk_step.
Qed.
Lemma uses_run pc s d us : forall t t' f, use_all t us = (t', f) -> map snd f = us /\
  prun pc (mkPx s d t) (map PUse us) = (mkPx s d t', Ok tt) /\
  forall before x u after, f = before ++ (x, u) :: after -> prun pc (mkPx s d t) (map PUse (map snd before)) = (mkPx s d x, Ok tt).
Proof.
  induction us as [|v us IH]; intros t t' f E; cbn in E.
  - injection E as <- <-. split; auto. split; auto. intros [|] x u after E; discriminate.
  - destruct (use_all (step t v) us) as [t1 f1] eqn:E1. injection E as <- <-. destruct (IH _ _ _ E1) as (I1 & I2 & I3).
    split; [cbn; congruence|]. split; [exact I2|]. intros before x u after E. destruct before as [|b before]; cbn in E; injection E as E2 E3.
    + subst. reflexivity.
    + subst b. cbn. eapply I3. eauto.
Qed.
Lemma app_middle {A} (l1 : list A) : forall l2 before y after, l1 ++ l2 = before ++ y :: after ->
  (exists af, l1 = before ++ y :: af) \/ exists bf, before = l1 ++ bf /\ l2 = bf ++ y :: after.
Proof.
  induction l1 as [|z l1 IH]; intros l2 before y after E; [right; exists before; auto|].
  destruct before as [|b before]; simpl in E; inversion E; subst; [left; eexists; reflexivity|].
  destruct (IH _ _ _ _ H1) as [[af ->]|(bf & -> & ->)]; [left|right]; eexists; [reflexivity|]. split; reflexivity.
Qed.
Lemma ob_uses rs os us h us' : one_by_one (S:=S) rs os us h -> one_by_one rs os (us' ++ us) (map PUse us' ++ h).
Proof. intros O. induction us' as [|u us' IH]; cbn; auto. constructor. auto. Qed.

Lemma dset_app (c0 c1 : dict Z (episode S)) a e : ~ In a (dkeys c0) -> dset (c0 ++ c1) a e = c0 ++ dset c1 a e.
Proof.
  induction c0 as [|(k, v) c0 IH]; cbn; auto. intros N. destruct (Z.eqb_spec a k) as [->|]; [tauto|].
  destruct (Z.eqb_spec k a) as [->|]; [tauto|]. f_equal. apply IH. tauto.
Qed.
Lemma one_acc pc lk rs s d c0 c1 a o s' d' c' x : ~ In a (dkeys c0) -> collect_one pc lk rs (s, d, c1) a o = ((s', d', c'), x) ->
  collect_one pc lk rs (s, d, c0 ++ c1) a o = ((s', d', c0 ++ c'), x).
Proof.
  intros N E. unfold collect_one in *.
  match type of E with context [match ?m with Ok _ => _ | Err _ => _ end] => destruct m as [data|e] end; [|injection E as <- <- <- <-; reflexivity].
  destruct (is_final (o_state o)).
  - destruct (dget s a) as [e|]; [|injection E as <- <- <- <-; reflexivity]. cbv zeta in *. injection E as <- <- <- <-.
    destruct (long_enough _ _ _); auto. rewrite dset_app by auto. reflexivity.
  - destruct (dget rs a); injection E as <- <- <- <-; reflexivity.
Qed.
Lemma collect_acc pc lk rs os : forall s d c0 c1 s' d' c' x, Forall (fun a => ~ In a (dkeys c0)) (dkeys os) ->
  collect pc lk rs (s, d, c1) os = ((s', d', c'), x) -> collect pc lk rs (s, d, c0 ++ c1) os = ((s', d', c0 ++ c'), x).
Proof.
  induction os as [|(a, o) os IH]; intros s d c0 c1 s' d' c' x F E; cbn [collect] in *; [injection E as <- <- <- <-; reflexivity|].
  inversion F as [|? ? N F']; subst. destruct (collect_one pc lk rs (s, d, c1) a o) as [[[s1 d1] c2] y] eqn:E1.
  rewrite (one_acc N E1). destruct y; [|injection E as <- <- <- <-; reflexivity]. apply IH; auto.
Qed.
(** One observation completes at most one episode. *)
Lemma one_completes pc lk rs s d a o s' d' c : collect_one pc lk rs (s, d, []) a o = ((s', d', c), Ok tt) -> c = [] \/ exists e, c = [(a, e)].
Proof.
  unfold collect_one. match goal with |- context [match ?m with Ok _ => _ | Err _ => _ end] => destruct m as [data|e] end; [|discriminate].
  destruct (is_final (o_state o)).
  - destruct (dget s a) as [e|]; [|intros E; injection E as <- <- <-; auto]. cbv zeta. intros E. injection E as <- <- <-.
    destruct (long_enough _ _ _); eauto.
  - destruct (dget rs a); [|discriminate]. intros E. injection E as <- <- <-. auto.
Qed.

Lemma core pc rs os : forall s d t s' d' c plan t' found r,
  collect pc (t_lenkey t) rs (s, d, []) os = ((s', d', c), Ok tt) -> NoDup (dkeys os) -> submit_amid t c plan = (t', found, r) ->
  (r = Ok tt -> exists h, one_by_one rs os (map snd found) h /\ prun pc (mkPx s d t) h = (mkPx s' d' t', Ok tt)) /\
  (forall before x u after, found = before ++ (x, u) :: after ->
     exists k h pk, one_by_one rs (firstn k os) (map snd before) h /\ prun pc (mkPx s d t) h = (pk, Ok tt) /\ px_table pk = x).
Proof.
  induction os as [|(a, o) os IH]; intros s d t s' d' c plan t' found r E N Es.
  - cbn in E. injection E as <- <- <-. cbn in Es. injection Es as <- <- <-. split.
    + intros _. exists []. split; [constructor|]. reflexivity.
    + intros [|] x u after E; discriminate.
  - cbn [collect] in E. inversion N as [|? ? Na N']; subst.
    destruct (collect_one pc (t_lenkey t) rs (s, d, []) a o) as [[[s1 d1] c1] y] eqn:E1. destruct y as [[]|]; [|discriminate].
    destruct (collect pc (t_lenkey t) rs (s1, d1, []) os) as [[[s2 d2] c2] z] eqn:E2.
    destruct (one_completes E1) as [->|(e & ->)].
    + (* nothing completed *)
      pose proof (eq_trans (eq_sym E2) E) as X. injection X as -> -> -> ->.
      assert (P1 : forall dr, pstep pc (mkPx s d t) (PAdd [(a, o)] rs dr) = (mkPx s1 d1 t, Ok tt)).
      { intros dr. cbn. unfold proxy_add. cbn [px_store px_done px_table collect]. rewrite E1. reflexivity. }
      destruct (IH s1 d1 t s' d' c plan t' found r E2 N' Es) as (I1 & I2). split.
      * intros R. destruct (I1 R) as (h & O & P). exists (PAdd [(a, o)] rs [] :: h). split; [constructor; auto|]. cbn [prun]. rewrite P1. exact P.
      * intros before x u after Ef. destruct (I2 _ _ _ _ Ef) as (k & h & pk & O & P & T).
        exists (Datatypes.S k), (PAdd [(a, o)] rs [] :: h), pk. cbn [firstn]. split; [constructor; auto|]. split; auto. cbn [prun]. rewrite P1. exact P.
    + assert (Fa : Forall (fun b => ~ In b (dkeys [(a, e)])) (dkeys os)).
      { apply Forall_forall. intros b Ib [X|[]]. cbn in X. subst. auto. }
      assert (E2' := collect_acc Fa E2). cbn [app] in E2'. pose proof (eq_trans (eq_sym E2') E) as X. injection X as -> -> <- ->.
      cbn [submit_amid] in Es. destruct (hd ([], []) plan) as [dr us].
      destruct (add_sequence t a (touch e (t_lenkey t)) dr) as [t1 [[]|x]] eqn:Ea.
      2:{ injection Es as <- <- <-. split; [discriminate|]. intros [|] x' u after Ef; discriminate. }
      destruct (use_all t1 us) as [t2 f1] eqn:Eu. destruct (submit_amid t2 c2 (tl plan)) as [[t3 f2] r'] eqn:Er. injection Es as -> <- ->.
      assert (L1 : t_lenkey t1 = t_lenkey t) by (rewrite <- (add_lk t a (touch e (t_lenkey t)) dr), Ea; reflexivity).
      assert (L2 : t_lenkey t2 = t_lenkey t) by (rewrite (uses_lk Eu); auto).
      assert (P1 : pstep pc (mkPx s d t) (PAdd [(a, o)] rs [dr]) = (mkPx s1 d1 t1, Ok tt)).
      { cbn. unfold proxy_add. cbn [px_store px_done px_table collect]. rewrite E1. cbn [submit hd]. rewrite Ea. reflexivity. }
      destruct (@uses_run pc s1 d1 us t1 t2 f1 Eu) as (U1 & U2 & U3).
      rewrite <- L2 in E2. destruct (IH s1 d1 t2 s' d' c2 (tl plan) t' f2 r E2 N' Er) as (I1 & I2). split.
      * intros R. destruct (I1 R) as (h & O & P). exists (PAdd [(a, o)] rs [dr] :: map PUse us ++ h). rewrite map_app, U1. split.
        -- constructor. apply ob_uses. auto.
        -- cbn [prun]. rewrite P1, (prun_join h U2). exact P.
      * intros before x u after Ef.
        assert (Sp : (exists af, f1 = before ++ (x, u) :: af) \/ exists bf, before = f1 ++ bf /\ f2 = bf ++ (x, u) :: after).
        { apply (app_middle Ef). }
        destruct Sp as [[af Ea1]|(bf & -> & Ef2)].
        -- exists 1%nat, (PAdd [(a, o)] rs [dr] :: map PUse (map snd before) ++ []), (mkPx s1 d1 x). cbn [firstn]. split; [|split; auto].
           ++ constructor. rewrite <- (app_nil_r (map snd before)) at 1. apply ob_uses. constructor.
           ++ cbn [prun]. rewrite P1, app_nil_r. eapply U3. eauto.
        -- destruct (I2 _ _ _ _ Ef2) as (k & h & pk & O & P & T).
           exists (Datatypes.S k), (PAdd [(a, o)] rs [dr] :: map PUse us ++ h), pk. cbn [firstn]. rewrite map_app, U1. split; [constructor; apply ob_uses; auto|].
           split; auto. cbn [prun]. rewrite P1, (prun_join h U2). exact P.
Qed.

Lemma in_progress pc p os rs us plan p' found r : NoDup (dkeys os) -> add_amid pc p os rs us plan = (p', found, r) ->
  (r = Ok tt -> exists h, one_by_one rs os (map snd found) h /\ prun pc p h = (p', Ok tt)) /\
  (forall before t u after, found = before ++ (t, u) :: after ->
     exists k h pk, one_by_one rs (firstn k os) (map snd before) h /\ prun pc p h = (pk, Ok tt) /\ px_table pk = t).
Proof.
  intros N E. unfold add_amid in E. destruct p as [s d t]. cbn [px_table px_store px_done] in E.
  destruct (use_all t us) as [t0 f0] eqn:Eu. destruct (@uses_run pc s d us t t0 f0 Eu) as (U1 & U2 & U3).
  assert (BEF : forall before x u after, f0 = before ++ (x, u) :: after ->
    exists k h pk, one_by_one rs (firstn k os) (map snd before) h /\ prun pc (mkPx s d t) h = (pk, Ok tt) /\ px_table pk = x).
  { intros before x u after Ef. exists 0%nat, (map PUse (map snd before) ++ []), (mkPx s d x). cbn [firstn]. split; [|split; auto].
    - rewrite <- (app_nil_r (map snd before)) at 1. apply ob_uses. constructor.
    - rewrite app_nil_r. eapply U3. eauto. }
  destruct (collect pc (t_lenkey t) rs (s, d, []) os) as [[[s1 d1] c] [[]|x]] eqn:Ec.
  2:{ injection E as <- <- <-. split; [discriminate|]. exact BEF. }
  destruct (submit_amid t0 c plan) as [[t2 f2] r'] eqn:Es. injection E as <- <- ->.
  rewrite <- (uses_lk Eu) in Ec. destruct (core Ec N Es) as (I1 & I2). split.
  - intros R. destruct (I1 R) as (h & O & P). exists (map PUse us ++ h). rewrite map_app, U1. split; [apply ob_uses; auto|].
    rewrite (prun_join h U2). exact P.
  - intros before x u after Ef.
    assert (Sp : (exists af, f0 = before ++ (x, u) :: af) \/ exists bf, before = f0 ++ bf /\ f2 = bf ++ (x, u) :: after).
    { apply (app_middle Ef). }
    destruct Sp as [[af Ea1]|(bf & -> & Ef2)]; [eapply BEF; eauto|].
    destruct (I2 _ _ _ _ Ef2) as (k & h & pk & O & P & T). exists k, (map PUse us ++ h), pk. rewrite map_app, U1.
    split; [apply ob_uses; auto|]. split; auto. rewrite (prun_join h U2). exact P.
Qed.

(** Without other threads it is add. *)
Lemma submit_alone draws : forall eps t, submit_amid t eps (map (fun d => (d, [])) draws) = (fst (submit t eps draws), [], snd (submit t eps draws)).
Proof.
  induction draws as [|d draws IH].
  - intros eps. induction eps as [|(a, e) eps IHe]; intros t; cbn; auto.
    destruct (add_sequence t a (touch e (t_lenkey t)) []) as [t' [[]|]]; auto. specialize (IHe t'). cbn in IHe. rewrite IHe. reflexivity.
  - intros [|(a, e) eps] t; cbn; auto. destruct (add_sequence t a (touch e (t_lenkey t)) d) as [t' [[]|]]; auto. rewrite IH. reflexivity.
Qed.
Lemma amid_alone pc p os rs draws : add_amid pc p os rs [] (map (fun d => (d, [])) draws) = (fst (proxy_add pc p os rs draws), [], snd (proxy_add pc p os rs draws)).
Proof.
  unfold add_amid, proxy_add. cbn [use_all].
  destruct (collect pc (t_lenkey (px_table p)) rs (px_store p, px_done p, []) os) as [[[s1 d1] c] [[]|x]]; auto.
  rewrite submit_alone. destruct (submit (px_table p) c draws). reflexivity.
Qed.
End T.

Section B.
Context {S : Type} {HS : Scalar S}.
Lemma back pc rs os us h : one_by_one (S:=S) rs os us h -> forall s d t s' d' t', NoDup (dkeys os) -> prun pc (mkPx s d t) h = (mkPx s' d' t', Ok tt) ->
  exists us0 plan c t0 f0 f, collect pc (t_lenkey t) rs (s, d, []) os = ((s', d', c), Ok tt) /\ use_all t us0 = (t0, f0) /\
    submit_amid t0 c plan = (t', f, Ok tt) /\ map snd (f0 ++ f) = us.
Proof.
  induction 1 as [|a o dr os us h O IH|u os us h O IH]; intros s d t s' d' t' N P.
  - cbn in P. injection P as <- <- <-. exists [], [], [], t, [], []. split; [|split; [|split]]; reflexivity.
  - cbn [prun] in P. inversion N as [|? ? Na N']; subst.
    destruct (pstep pc (mkPx s d t) (PAdd [(a, o)] rs dr)) as [[s1 d1 t1] y] eqn:E0. destruct y as [[]|]; [|discriminate].
    cbn [pstep] in E0. unfold proxy_add in E0. cbn [px_store px_done px_table collect] in E0.
    destruct (collect_one pc (t_lenkey t) rs (s, d, []) a o) as [[[s2 d2] c1] z] eqn:E1. destruct z as [[]|]; [|discriminate].
    destruct (one_completes E1) as [->|(e & ->)].
    + cbn in E0. injection E0 as -> -> ->. destruct (IH _ _ _ _ _ _ N' P) as (us0 & plan & c & t0 & f0 & f & A1 & A2 & A3 & A4).
      exists us0, plan, c, t0, f0, f. split; auto. cbn [collect]. pose proof E1 as E1'. rewrite E1'. exact A1.
    + cbn [submit] in E0. destruct (add_sequence t a (touch e (t_lenkey t)) (hd [] dr)) as [t2 [[]|]] eqn:Ea; [|discriminate].
      injection E0 as -> -> ->. destruct (IH _ _ _ _ _ _ N' P) as (us0 & plan & c & t0 & f0 & f & A1 & A2 & A3 & A4).
      assert (L1 : t_lenkey t1 = t_lenkey t) by (rewrite <- (add_lk t a (touch e (t_lenkey t)) (hd [] dr)), Ea; reflexivity).
      rewrite L1 in A1.
      exists [], ((hd [] dr, us0) :: plan), ((a, e) :: c), t, [], (f0 ++ f). split; [|split; [|split]]; auto.
      * cbn [collect]. pose proof E1 as E1'. rewrite E1'.
        assert (Fa : Forall (fun b => ~ In b (dkeys [(a, e)])) (dkeys os)) by (apply Forall_forall; intros b Ib [X|[]]; cbn in X; subst; auto).
        exact (collect_acc Fa A1).
      * cbn [submit_amid hd]. rewrite Ea, A2. cbn [tl]. rewrite A3. reflexivity.
  - cbn [prun pstep px_store px_done px_table] in P. destruct (IH _ _ _ _ _ _ N P) as (us0 & plan & c & t0 & f0 & f & A1 & A2 & A3 & A4).
    rewrite lk_step in A1. exists (u :: us0), plan, c, t0, ((t, u) :: f0), f. split; auto. split; [cbn; rewrite A2; reflexivity|].
    split; auto. cbn. rewrite A4. reflexivity.
Qed.
Lemma together pc p os rs us h p' : one_by_one (S:=S) rs os us h -> NoDup (dkeys os) -> prun pc p h = (p', Ok tt) ->
  exists us0 plan found, add_amid pc p os rs us0 plan = (p', found, Ok tt) /\ map snd found = us.
Proof.
  intros O N P. destruct p as [s d t], p' as [s' d' t']. destruct (back O N P) as (us0 & plan & c & t0 & f0 & f & A1 & A2 & A3 & A4).
  exists us0, plan, (f0 ++ f). split; auto. unfold add_amid. cbn [px_table px_store px_done]. rewrite A2, A1, A3. reflexivity.
Qed.
Lemma alone_together pc p os rs h p' : one_by_one (S:=S) rs os [] h -> NoDup (dkeys os) -> prun pc p h = (p', Ok tt) ->
  exists draws, proxy_add pc p os rs draws = (p', Ok tt).
Proof.
  intros O N P. destruct (together O N P) as (us0 & plan & found & E & F). destruct found; [|discriminate].
  assert (U : us0 = []).
  { unfold add_amid in E. destruct us0; auto. cbn in E. destruct (use_all (step (px_table p) o) us0).
    destruct (collect pc (t_lenkey (px_table p)) rs (px_store p, px_done p, []) os) as [[[? ?] ?] [[]|]]; [|discriminate].
    destruct (submit_amid t d0 plan) as [[? ?] ?]. discriminate. }
  subst. exists (map fst plan). unfold add_amid in E. cbn [use_all] in E. unfold proxy_add.
  destruct (collect pc (t_lenkey (px_table p)) rs (px_store p, px_done p, []) os) as [[[s1 d1] c] [[]|]]; [|discriminate].
  assert (G : forall c t plan t', submit_amid t c plan = (t', [], Ok tt) -> submit t c (map fst plan) = (t', Ok tt)).
  { clear. induction c as [|(a, e) c IH]; intros t plan t' E; cbn in *; [congruence|].
    destruct (hd ([], []) plan) as [dr us] eqn:Eh. replace (hd [] (map fst plan)) with dr by (destruct plan; cbn in *; subst; congruence || auto).
    destruct (add_sequence t a (touch e (t_lenkey t)) dr) as [t1 [[]|]]; [|discriminate].
    destruct (use_all t1 us) as [t2 f1] eqn:Eu. destruct (submit_amid t2 c (tl plan)) as [[t3 f2] r] eqn:Er. injection E as -> Ef ->.
    apply app_eq_nil in Ef as [-> ->].
    assert (us = []) by (destruct us; auto; cbn in Eu; destruct (use_all (step t1 o) us); discriminate). subst. cbn in Eu. injection Eu as ->.
    replace (tl (map fst plan)) with (map fst (tl plan)) by (destruct plan; reflexivity). apply IH. exact Er. }
  destruct (submit_amid (px_table p) c plan) as [[t2 f2] r] eqn:Es. cbn in E. injection E as <- -> ->. rewrite (G _ _ _ _ Es). reflexivity.
Qed.
End B.

Section W.
Context {S : Type} {HS : Scalar S}.
Lemma episodes_more (st1 st2 : list (moment (S:=S))) : forall cur, episodes cur (st1 ++ st2) = episodes cur st1 ++ episodes (running cur st1) st2.
Proof.
  induction st1 as [|m st1 IH]; intros cur; cbn; auto. destruct (is_final (o_state (fst m))); [|apply IH].
  destruct cur; rewrite IH; reflexivity.
Qed.
Lemma stream_join a (h h' : list (pop S)) : stream a (h ++ h') = stream a h ++ stream a h'.
Proof. unfold stream. apply flat_map_app. Qed.
Lemma stream_one rs os us h a : one_by_one (S:=S) rs os us h -> NoDup (dkeys os) -> stream a h = match dget os a with Some ob => [(ob, dget rs a)] | None => [] end.
Proof.
  induction 1 as [|b o dr os us h O IH|u os us h O IH]; intros N; auto.
  - inversion N as [|? ? Nb N']; subst. unfold stream in *. cbn [flat_map]. rewrite (IH N'). cbn [dget].
    destruct (keqb a b) eqn:Ek; [|reflexivity].
    assert (a = b) by (apply Z.eqb_eq; exact Ek). subst. destruct (dget os b) eqn:Eg; [|reflexivity].
    exfalso. apply Nb. eapply dget_Some_key. eauto.
Qed.
Lemma one_batches rs os us h : one_by_one (S:=S) rs os us h -> uses_only us -> Forall (fun x => NoDup (dkeys (o_data (snd x)))) os ->
  Forall (fun x => NoDup (dkeys (r_list (snd x))) /\ NoDup (dkeys (r_scalar (snd x)))) rs -> batches_ok h.
Proof.
  intros O. induction O as [|b o dr os us h O IH|u os us h O IH]; intros U F G; [constructor| |].
  - inversion F; subst. constructor; [|apply IH; auto]. split; [constructor; [intros []|constructor]|]. split; auto.
  - inversion U; subst. constructor; [|apply IH; auto]. destruct u; auto.
Qed.
Lemma one_agents rs os us h : one_by_one (S:=S) rs os us h -> uses_only us -> Forall (fun a => 0 <= a) (dkeys os) ->
  Forall (fun o => match o with PAdd os _ _ => Forall (fun a => 0 <= a) (dkeys os) | PUse o => o <> OClear end) h.
Proof.
  intros O. induction O as [|b o dr os us h O IH|u os us h O IH]; intros U F; [constructor| |].
  - inversion F; subst. constructor; [|apply IH; auto]. constructor; auto.
  - inversion U; subst. constructor; [|apply IH; auto]. intros ->. auto.
Qed.
Lemma firstn_nodup {A} k (l : list A) : NoDup l -> NoDup (firstn k l).
Proof.
  revert l. induction k as [|k IH]; intros [|x l] N; cbn; try constructor; inversion N; subst; auto.
  intros I. apply H1. rewrite <- (firstn_skipn k l). apply in_or_app. auto.
Qed.
Lemma firstn_forall {A} (P : A -> Prop) k l : Forall P l -> Forall P (firstn k l).
Proof. intros F. rewrite <- (firstn_skipn k l) in F. apply Forall_app in F as [F _]. exact F. Qed.
Lemma keys_firstn k (os : dict Z (obs S)) : dkeys (firstn k os) = firstn k (dkeys os).
Proof. unfold dkeys. symmetry. apply firstn_map. Qed.
Lemma filter_app_in {A} (f : A -> bool) l1 l2 : filter f (l1 ++ l2) = filter f l1 ++ filter f l2.
Proof. apply filter_app. Qed.

Lemma drawn_during_add pc cols lk maxlen smp ej sch (h : list (pop S)) p os rs dr us plan p' found r before t after count L draws out :
  config_ok cols lk -> fresh_sampler smp -> fresh_ejector ej ->
  schema_ok (pc_terminal pc) sch -> layout cols lk (pc_terminal pc) sch ->
  batches_ok (h ++ [PAdd os rs dr]) -> agents_ok pc cols lk sch L (h ++ [PAdd os rs dr]) -> (1 <= L)%nat ->
  prun pc (px_new (t_create cols lk maxlen smp ej)) h = (p, Ok tt) ->
  add_amid pc p os rs us plan = (p', found, r) -> uses_only (map snd found) ->
  found = before ++ (t, OSample count L draws) :: after ->
  snd (t_sample t count L draws) = Ok out ->
  batch_sized cols out count L /\
  forall j, (j < count)%nat ->
  exists a ms i, In ms (episodes [] (stream a (h ++ [PAdd os rs dr]))) /\ is_window cols sch out L j ms i.
Proof.
  intros CO Fs Fe SO LA BO [AG1 AG2] HL E EA UO Ef Eo.
  apply Forall_app in BO as [BO1 BO2]. inversion BO2 as [|? ? Hb _]; subst. destruct Hb as (N & F1 & F2).
  apply Forall_app in AG1 as [AG0 AG1]. inversion AG1 as [|? ? Ids _]; subst.
  destruct (in_progress N EA) as [_ IP]. destruct (IP _ _ _ _ eq_refl) as (k & h' & pk & O & P & <-).
  rewrite map_app in UO. apply Forall_app in UO as [UO _].
  assert (Nk : NoDup (dkeys (firstn k os))) by (rewrite keys_firstn; apply firstn_nodup; auto).
  assert (ST : forall a, exists more, stream a (h ++ [PAdd os rs dr]) = stream a (h ++ h') ++ more).
  { intros a. rewrite !stream_join, (stream_one a O Nk). cbn. destruct (dget (firstn k os) a) as [ob|] eqn:Eg.
    - assert (Eg' : dget os a = Some ob).
      { rewrite <- (firstn_skipn k os), dget_app, Eg. reflexivity. }
      rewrite Eg'. exists []. rewrite !app_nil_r. reflexivity.
    - exists (match dget os a with Some ob => [(ob, dget rs a)] | None => [] end). rewrite !app_nil_r. reflexivity. }
  assert (EP : forall a, exists more, episodes [] (stream a (h ++ [PAdd os rs dr])) = episodes [] (stream a (h ++ h')) ++ more).
  { intros a. destruct (ST a) as [more ->]. rewrite episodes_more. eauto. }
  destruct (@end_to_end_windows S HS pc cols lk maxlen smp ej sch (h ++ h') pk count L draws out) as [Sz W]; auto.
  - apply Forall_app. split; auto. apply (one_batches O); auto. apply firstn_forall. auto.
  - split.
    + apply Forall_app. split; auto. apply (one_agents O); auto. rewrite keys_firstn. apply firstn_forall. auto.
    + intros a. destruct (AG2 a) as [A1 A2]. destruct (EP a) as [more Em]. rewrite Em, filter_app in A1, A2. cbv zeta. split.
      * rewrite app_length in A1. lia.
      * intros ms I. apply A2. apply in_or_app. auto.
  - rewrite (prun_join h' E). exact P.
  - split; auto. intros j Hj. destruct (W j Hj) as (a & ms & i & I & Wi). exists a, ms, i. split; auto.
    destruct (EP a) as [more ->]. apply in_or_app. auto.
Qed.
End W.

Section A.
Context {S : Type} {HS : Scalar S}.
Lemma alone pc (p : proxy S) os rs p' : NoDup (dkeys os) ->
  (exists draws, proxy_add pc p os rs draws = (p', Ok tt)) <-> (exists h, one_by_one rs os [] h /\ prun pc p h = (p', Ok tt)).
Proof.
  intros N. split.
  - intros [draws E]. pose proof (amid_alone pc p os rs draws) as A. rewrite E in A. cbn [fst snd] in A.
    destruct (in_progress N A) as [I _]. exact (I eq_refl).
  - intros (h & O & P). exact (alone_together O N P).
Qed.
End A.
