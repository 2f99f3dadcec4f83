(** * ProxyProofs: the sequence builder records what each agent experienced. *)
From Verif Require Import Py PyLemmas MemModel MemSpec MemProofs MemRun ProxyModel ProxySpec.
Open Scope string_scope.
Open Scope list_scope.
Open Scope Z_scope.
Set Implicit Arguments.

Section Proofs.
Context {S : Type} `{Scalar S}.
Notation moment := (moment (S:=S)).

(** ** One moment *)

(** The data the proxy computes for a moment. *)
Definition mdata (ut : bool) (m : moment) : option (dict string (list S)) :=
  let o := fst m in
  match (if is_initial (o_state o) then Some (o_data o)
         else option_map (fun r => dset (o_data o) "rewards" r) (dget (o_rewards o) "reward")) with
  | None => None
  | Some d =>
      if is_final (o_state o)
      then Some (if ut then dset d "terminal" [match o_state o with INTERRUPTED => s_one | _ => s_zero end] else d)
      else match snd m with
           | None => None
           | Some r => Some (dupdate (dupdate d (r_list r)) (r_scalar r))
           end
  end.

Definition moment_ok (m : moment) : Prop :=
  NoDup (dkeys (o_data (fst m))) /\
  match snd m with Some r => NoDup (dkeys (r_list r)) /\ NoDup (dkeys (r_scalar r)) | None => True end.

Lemma mdata_ok ut m d : moment_ok m -> mdata ut m = Some d ->
  NoDup (dkeys d) /\ forall k, dget d k = contribution ut k m.
Proof.
  intros [N1 N2] E. unfold mdata in E. destruct m as [o r]. cbn [fst snd] in *.
  set (base := if is_initial (o_state o) then Some (o_data o)
         else option_map (fun r => dset (o_data o) "rewards" r) (dget (o_rewards o) "reward")) in E.
  destruct base as [d0|] eqn:Eb; [|discriminate].
  assert (B : NoDup (dkeys d0) /\ forall k, dget d0 k =
     orelse (if String.eqb k "rewards" then reward_of o else None) (dget (o_data o) k)).
  { unfold base, reward_of in *. destruct (is_initial (o_state o)).
    - injection Eb as <-. split; auto. intros k. destruct (String.eqb k "rewards"); auto.
    - destruct (dget (o_rewards o) "reward") as [r0|]; [|discriminate]. injection Eb as <-. split.
      + apply NoDup_dset; auto.
      + intros k. rewrite dget_dset. simpl. rewrite String.eqb_sym. destruct (String.eqb "rewards" k); auto. }
  destruct B as [B1 B2]. unfold contribution. cbn [fst snd].
  destruct (is_final (o_state o)) eqn:Ef.
  - injection E as <-. destruct ut; simpl.
    + split; [apply NoDup_dset; auto|]. intros k. rewrite dget_dset, <- B2. simpl. rewrite String.eqb_sym.
      destruct (String.eqb "terminal" k); auto.
    + split; auto.
  - destruct r as [r|]; [|discriminate]. injection E as <-. destruct N2 as [N2 N3]. split.
    + apply NoDup_dupdate, NoDup_dupdate; auto.
    + intros k. rewrite !dget_dupdate, B2 by auto. unfold orelse.
      destruct (dget (r_scalar r) k); auto. destruct (dget (r_list r) k); auto.
Qed.

(** ** Episodes under construction *)
Definition rec (ut : bool) (e : episode S) (ms : list moment) : Prop :=
  NoDup (dkeys e) /\
  forall k, dget e k = match column_of ut k ms with [] => None | l => Some l end.

Lemma ep_append_get (data : dict string (list S)) : forall e, NoDup (dkeys data) -> forall k,
  dget (ep_append e data) k =
  match dget data k with Some v => Some (dget_default e k [] ++ [v]) | None => dget e k end.
Proof.
  unfold ep_append. induction data as [|[k0 v0] r IH]; intros e Nd k; cbn [fold_left]; auto.
  inversion Nd as [|? ? Ni Nd']; subst. rewrite IH by auto. cbn [dget fst snd].
  destruct (keqb_spec k k0) as [->|Ne].
  - destruct (dget r k0) eqn:E; [apply dget_Some_key in E; tauto|]. apply dget_dset_eq.
  - unfold dget_default. rewrite dget_dset_neq by auto. auto.
Qed.
Lemma ep_append_nodup (data : dict string (list S)) : forall e,
  NoDup (dkeys e) -> NoDup (dkeys (ep_append e data)).
Proof.
  unfold ep_append. induction data as [|[k0 v0] r IH]; intros e Nd; cbn [fold_left]; auto.
  apply IH. apply NoDup_dset; auto.
Qed.

Lemma column_snoc ut k (ms : list moment) m :
  column_of ut k (ms ++ [m]) = column_of ut k ms ++ match contribution ut k m with Some v => [v] | None => [] end.
Proof. unfold column_of. rewrite flat_map_app. cbn [flat_map]. rewrite app_nil_r. auto. Qed.

Lemma rec_append ut e ms m d : rec ut e ms -> moment_ok m -> mdata ut m = Some d ->
  rec ut (ep_append e d) (ms ++ [m]).
Proof.
  intros [R1 R2] M E. destruct (@mdata_ok ut m d M E) as [D1 D2]. split; [apply ep_append_nodup; auto|].
  intros k. rewrite ep_append_get, column_snoc, D2 by auto. unfold dget_default. rewrite R2.
  destruct (contribution ut k m) as [v|].
  - destruct (column_of ut k ms); auto.
  - rewrite app_nil_r. auto.
Qed.
Lemma rec_nil ut : rec ut [] [].
Proof. split; [constructor|]. auto. Qed.

Lemma NoDup_app_one {A} (l : list A) x : NoDup l -> ~ In x l -> NoDup (l ++ [x]).
Proof.
  intros N I. apply NoDup_Add with (a := x) (l := l); [|split; auto].
  pose proof (Add_app x l []) as Ad. rewrite app_nil_r in Ad. exact Ad.
Qed.

Lemma touch_records ut lk e ms : rec ut e ms -> records ut lk (touch e lk) ms.
Proof.
  intros [R1 R2]. unfold touch. destruct (dmem e lk) eqn:Em.
  - split; auto. intros k. rewrite R2. destruct (column_of ut k ms) eqn:Ec; auto.
    destruct (String.eqb_spec k lk) as [->|]; auto.
    unfold dmem in Em. rewrite R2, Ec in Em. discriminate.
  - apply dmem_false in Em. split.
    + rewrite dkeys_app. cbn. apply NoDup_app_one; auto.
    + intros k. rewrite dget_app, R2. destruct (column_of ut k ms) eqn:Ec; auto.
Qed.

Lemma long_enough_kept pc lk e ms : rec (pc_terminal pc) e ms -> long_enough pc lk e = kept pc lk ms.
Proof.
  intros [_ R]. unfold long_enough, kept. destruct (pc_min pc); auto. unfold dget_default. rewrite R.
  destruct (column_of (pc_terminal pc) lk ms); auto.
Qed.

(** ** The loop over the observations *)
Definition updf (cur : Z -> list moment) (a : Z) (x : list moment) : Z -> list moment :=
  fun b => if b =? a then x else cur b.

Definition store_rel (ut : bool) (store : dict Z (episode S)) (cur : Z -> list moment) : Prop :=
  NoDup (dkeys store) /\
  forall a, match dget store a with
            | Some e => cur a <> [] /\ rec ut e (cur a)
            | None => cur a = []
            end.

Lemma store_set ut store cur a e ms : store_rel ut store cur -> ms <> [] -> rec ut e ms ->
  store_rel ut (dset store a e) (updf cur a ms).
Proof.
  intros [S1 S2] Nm R. split; [apply NoDup_dset; auto|]. intros b. rewrite dget_dset. unfold updf.
  simpl. rewrite Z.eqb_sym. destruct (Z.eqb_spec b a) as [->|Ne]; auto.
  - rewrite Z.eqb_refl. auto.
  - rewrite (proj2 (Z.eqb_neq a b)) by auto. apply S2.
Qed.
Lemma store_del ut store cur a : store_rel ut store cur -> store_rel ut (ddel store a) (updf cur a []).
Proof.
  intros [S1 S2]. split; [apply NoDup_ddel; auto|]. intros b. unfold updf. destruct (Z.eqb_spec b a) as [->|Ne].
  - rewrite dget_ddel_eq by auto. auto.
  - rewrite dget_ddel_neq by auto. apply S2.
Qed.
Lemma store_ext ut store cur cur' : (forall a, cur a = cur' a) -> store_rel ut store cur -> store_rel ut store cur'.
Proof. intros E [S1 S2]. split; auto. intros a. rewrite <- E. apply S2. Qed.

Lemma collect_one_ok pc lk rs store seen comp a o st' cur :
  let m := (o, dget rs a) in
  store_rel (pc_terminal pc) store cur -> moment_ok m -> ~ In a (dkeys comp) ->
  collect_one pc lk rs (store, seen, comp) a o = (st', Ok tt) ->
  exists new, snd st' = comp ++ new /\ (new = [] \/ exists e, new = [(a, e)]) /\
    store_rel (pc_terminal pc) (fst (fst st')) (updf cur a (running (cur a) [m])) /\
    Forall2 (rec (pc_terminal pc)) (map snd new) (filter (kept pc lk) (episodes (cur a) [m])).
Proof.
  intros m [S1 S2] M Nc E. unfold collect_one in E.
  assert (Ed : exists d, mdata (pc_terminal pc) m = Some d /\
    st' = (if is_final (o_state o) then
            let seen' := if inb a seen then seen else seen ++ [a] in
            match dget store a with
            | None => (store, seen', comp)
            | Some e => (ddel store a, seen', if long_enough pc lk (ep_append e d) then dset comp a (ep_append e d) else comp)
            end
           else (dset store a (ep_append (dget_default store a []) d), seen, comp)) \/
    (is_final (o_state o) = true /\ dget store a = None /\ cur a = [] /\ fst (fst st') = store /\ snd st' = comp)).
  { unfold mdata, m. cbn [fst snd]. 
    destruct (is_initial (o_state o)) eqn:Ei.
    - assert (Ef : is_final (o_state o) = false) by (destruct (o_state o); auto; discriminate).
      rewrite Ef in *. destruct (dmem store a); [discriminate|].
      destruct (dget rs a) as [r|]; [|discriminate]. inversion E; subst. eexists. left. split; reflexivity.
    - destruct (dget (o_rewards o) "reward") as [rw|]; [|discriminate]. cbn [option_map].
      destruct (is_final (o_state o)) eqn:Ef.
      + eexists. left. split; [reflexivity|]. destruct (dget store a) as [e|]; inversion E; subst; auto.
      + destruct (dget rs a) as [r|]; [|discriminate]. inversion E; subst. eexists. left. split; reflexivity. }
  destruct Ed as (d & [[Ed ->]|(Ef & E0 & Ec & E1 & E2)]).
  2:{ exists []. rewrite E1, E2, app_nil_r. split; auto. split; auto. cbn [running episodes]. unfold m. cbn [fst].
      rewrite Ef, Ec. split; [|constructor]. apply store_ext with (cur := cur); [|split; auto].
      intros b. unfold updf. destruct (Z.eqb_spec b a) as [->|]; auto. }
  cbn [running episodes]. change (fst m) with o.
  destruct (is_final (o_state o)) eqn:Ef.
  - pose proof (S2 a) as Sa. destruct (dget store a) as [e|] eqn:Es.
    + destruct Sa as [Ne R]. pose proof (@rec_append _ _ _ _ _ R M Ed) as R'.
      cbn [fst snd]. destruct (cur a) as [|c0 cr] eqn:Ec; [congruence|]. rewrite <- Ec in *.
      cbn [filter]. rewrite <- (@long_enough_kept pc lk _ _ R').
      destruct (long_enough pc lk (ep_append e d)) eqn:El.
      * exists [(a, ep_append e d)]. rewrite dset_fresh by auto. split; auto. split; eauto.
        split; [apply store_del; split; auto|]. constructor; auto.
      * exists []. rewrite app_nil_r. split; auto. split; auto. split; [apply store_del; split; auto|constructor].
    + cbn [fst snd]. exists []. rewrite app_nil_r. split; auto. split; auto. rewrite Sa. split; [|constructor].
      apply store_ext with (cur := cur); [|split; auto]. intros b. unfold updf.
      destruct (Z.eqb_spec b a) as [->|]; auto.
  - cbn [fst snd]. exists []. rewrite app_nil_r. split; auto. split; auto. split; [|constructor].
    apply store_set; [split; auto| |].
    + destruct (cur a); discriminate.
    + apply rec_append; auto. unfold dget_default. pose proof (S2 a) as Sa. destruct (dget store a) as [e|].
      * tauto.
      * rewrite Sa. apply rec_nil.
Qed.

Definition now (a : Z) (os : dict Z (obs S)) (rs : dict Z (resp S)) : list moment :=
  match dget os a with Some ob => [(ob, dget rs a)] | None => [] end.

Definition mine (a : Z) (l : dict Z (episode S)) : list (episode S) :=
  map snd (filter (fun x => fst x =? a) l).
Lemma mine_app a l l' : mine a (l ++ l') = mine a l ++ mine a l'.
Proof. unfold mine. rewrite filter_app, map_app. auto. Qed.

Lemma collect_ok pc lk rs : Forall (fun x => NoDup (dkeys (r_list (snd x))) /\ NoDup (dkeys (r_scalar (snd x)))) rs ->
  forall os store seen comp st' cur,
  store_rel (pc_terminal pc) store cur -> NoDup (dkeys os) ->
  Forall (fun x => NoDup (dkeys (o_data (snd x)))) os ->
  (forall a, In a (dkeys comp) -> ~ In a (dkeys os)) ->
  collect pc lk rs (store, seen, comp) os = (st', Ok tt) ->
  exists new, snd st' = comp ++ new /\
    store_rel (pc_terminal pc) (fst (fst st')) (fun a => running (cur a) (now a os rs)) /\
    forall a, Forall2 (rec (pc_terminal pc)) (mine a new) (filter (kept pc lk) (episodes (cur a) (now a os rs))).
Proof.
  intros Hr. induction os as [|[a o] r IH]; intros store seen comp st' cur SR Nd Ho Hc E; cbn [collect] in E.
  - inversion E; subst. exists []. rewrite app_nil_r. split; auto. cbn. split; auto.
  - inversion Nd as [|? ? Na Nd']; subst. inversion Ho as [|? ? Ho1 Ho2]; subst. cbn [fst snd] in *.
    destruct (collect_one pc lk rs (store, seen, comp) a o) as [st1 [u|x]] eqn:E1; [|discriminate]. destruct u.
    assert (M : moment_ok (o, dget rs a)).
    { split; auto. cbn [snd]. destruct (dget rs a) as [rp|] eqn:Er; auto.
      apply dget_In in Er. rewrite Forall_forall in Hr. apply (Hr _ Er). }
    assert (Nc : ~ In a (dkeys comp)). { intros I. apply (Hc a I). simpl; auto. }
    destruct (@collect_one_ok pc lk rs store seen comp a o st1 cur SR M Nc E1) as (new1 & C1 & C2 & C3 & C4).
    destruct st1 as [[store1 seen1] comp1]. cbn [fst snd] in *. subst comp1.
    destruct (IH store1 seen1 (comp ++ new1) st' _ C3) as (new2 & D1 & D2 & D3); auto.
    { intros b Ib. unfold dkeys in Ib. rewrite map_app in Ib. apply in_app_or in Ib as [Ib|Ib].
      - intros I. apply (Hc b Ib). simpl; auto.
      - destruct C2 as [->|(e & ->)]; [destruct Ib|]. destruct Ib as [<-|[]]. auto. }
    exists (new1 ++ new2). split; [rewrite D1, app_assoc; auto|].
    assert (Hnow : forall b, now b ((a, o) :: r) rs = if b =? a then [(o, dget rs a)] else now b r rs).
    { intros b. unfold now. cbn [dget]. simpl. destruct (Z.eqb_spec b a) as [->|]; auto. }
    assert (Hna : now a r rs = []).
    { unfold now. destruct (dget r a) eqn:Eg; auto. apply dget_Some_key in Eg. tauto. }
    split.
    + eapply store_ext; [|exact D2]. intros b. cbv beta. rewrite Hnow. unfold updf.
      destruct (Z.eqb_spec b a) as [->|]; auto. rewrite Hna. auto.
    + intros b. rewrite mine_app, Hnow. specialize (D3 b). unfold updf in D3.
      destruct (Z.eqb_spec b a) as [Eb|Ne].
      * rewrite Eb in *. clear Eb b. rewrite Hna in D3. cbn [episodes filter] in D3. assert (Em : mine a new2 = []) by (inversion D3; auto). rewrite Em, app_nil_r.
        replace (mine a new1) with (map snd new1); auto.
        destruct C2 as [->|(e & ->)]; unfold mine; simpl; auto. rewrite Z.eqb_refl. auto.
      * replace (mine b new1) with (@nil (episode S)); auto.
        destruct C2 as [->|(e & ->)]; unfold mine; simpl; auto.
        rewrite (proj2 (Z.eqb_neq a b)) by auto. auto.
Qed.

(** ** Submitting *)
Lemma eject_one_lk (t : table S) i : t_lenkey (fst (eject_one t i)) = t_lenkey t.
Proof.
  unfold eject_one. destruct (del_all (t_data t) i) as [d [u|e]]; simpl; auto.
  destruct (dget (t_lengths t) i); simpl; auto.
  destruct (s_forget (t_sampler t) i) as [s [u'|e]]; simpl; auto.
  destruct (e_forget (t_ejector t) i) as [s' [u''|e]]; simpl; auto.
Qed.
Lemma eject_all_lk ids : forall t : table S, t_lenkey (fst (eject_all t ids)) = t_lenkey t.
Proof.
  induction ids as [|i r IH]; intros t; simpl; auto.
  pose proof (eject_one_lk t i) as E. destruct (eject_one t i) as [t1 [u|e]]; simpl in *; auto.
  rewrite IH; auto.
Qed.
Lemma add_lk (t : table S) id s dr : t_lenkey (fst (add_sequence t id s dr)) = t_lenkey t.
Proof.
  unfold add_sequence. destruct (dget s (t_lenkey t)); auto.
  match goal with |- context[match (if ?c then ?x else ?y) with _ => _ end] => set (X := if c then x else y) end.
  assert (L : t_lenkey (fst X) = t_lenkey t).
  { unfold X. destruct (_ <? _); auto. unfold eject_count.
    destruct (e_sample (t_ejector (with_filled t true)) _ dr) as [e [ids|x]]; simpl; auto.
    rewrite eject_all_lk. auto. }
  destruct X as [t1 [u|e]]; cbn [fst] in *; auto.
  destruct (write_columns (t_cols t1) (t_data t1) (wrap_id id) s) as [d [u1|e]]; cbn [fst]; auto.
  cbv zeta. destruct (s_track _ _ _) as [sm [u2|e]]; auto. destruct (e_track _ _ _) as [ej x0]; auto.
Qed.

Lemma submit_ok eps : forall (t : table S) draws t',
  submit t eps draws = (t', Ok tt) ->
  exists l, t' = run t (map as_op l) /\ map fst l = map (fun x => (fst x, touch (snd x) (t_lenkey t))) eps /\
    t_lenkey t' = t_lenkey t.
Proof.
  induction eps as [|[a e] r IH]; intros t draws t' E; cbn [submit] in E.
  - inversion E; subst. exists []. auto.
  - pose proof (add_lk t a (touch e (t_lenkey t)) (hd [] draws)) as L.
    destruct (add_sequence t a (touch e (t_lenkey t)) (hd [] draws)) as [t1 [u|x]] eqn:E1; [|discriminate].
    cbn [fst] in L. destruct (IH t1 _ _ E) as (l & R1 & R2 & R3).
    exists ((a, touch e (t_lenkey t), hd [] draws) :: l). split; [|split].
    + cbn [map]. change (run t (?x :: ?y)) with (run (step t x) y). cbn [step as_op fst snd]. rewrite E1. auto.
    + cbn [map fst snd]. rewrite R2, L. auto.
    + congruence.
Qed.

(** ** Histories *)
Lemma episodes_app cur (x y : list moment) : episodes cur (x ++ y) = episodes cur x ++ episodes (running cur x) y.
Proof.
  revert cur. induction x as [|m r IH]; intros cur; auto. cbn [app episodes running].
  destruct (is_final (o_state (fst m))); auto. destruct cur; rewrite IH; auto.
Qed.
Lemma running_app cur (x y : list moment) : running cur (x ++ y) = running (running cur x) y.
Proof.
  revert cur. induction x as [|m r IH]; intros cur; auto. cbn [app running].
  destruct (is_final (o_state (fst m))); auto.
Qed.
Lemma stream_cons a o (h : list (pop S)) : stream a (o :: h) = stream a [o] ++ stream a h.
Proof. unfold stream. cbn [flat_map]. rewrite app_nil_r. auto. Qed.

Lemma additions_app (x y : list (op S)) : additions (x ++ y) = additions x ++ additions y.
Proof. induction x as [|o r IH]; simpl; auto. destruct o; simpl; rewrite ?IH; auto. Qed.
Lemma additions_as_op (l : list (Z * sequence S * list draw)) : additions (map as_op l) = l.
Proof. induction l as [|[[a s] d] r IH]; simpl; auto. rewrite IH. auto. Qed.
Lemma added_app a l l' : added_by (S:=S) a (l ++ l') = added_by a l ++ added_by a l'.
Proof. unfold added_by. rewrite filter_app, map_app. auto. Qed.
Lemma added_mine a lk (l : list (Z * sequence S * list draw)) eps :
  map fst l = map (fun x => (fst x, touch (snd x) lk)) eps ->
  added_by a l = map (fun e => touch e lk) (mine a eps).
Proof.
  revert eps. induction l as [|[[b s] d] r IH]; intros [|[b' e] eps] E; try discriminate; auto.
  cbn [map fst snd] in E. inversion E; subst. unfold added_by, mine in *. cbn [filter fst].
  destruct (b' =? a); cbn [map]; rewrite IH with (eps := eps); auto.
Qed.
Lemma Forall2_touch ut lk (l : list (episode S)) ms : Forall2 (rec ut) l ms ->
  Forall2 (records ut lk) (map (fun e => touch e lk) l) ms.
Proof. induction 1; simpl; constructor; auto. apply touch_records; auto. Qed.

Lemma step_lk (t : table S) o : is_add o = false -> t_lenkey (step t o) = t_lenkey t.
Proof.
  destruct o; simpl; intros E; try discriminate; auto.
  - unfold t_sample. destruct (s_sample _ _ _ _) as [s [pts|x]]; simpl; auto.
    assert (G : forall cols (t : table S), t_lenkey (fst (gather_cols t count n pts cols)) = t_lenkey t).
    { clear. induction cols as [|c r IH]; intros t; simpl; auto.
      destruct (gather_points _ _ _ _ _ _) as [o|e]; auto.
      match goal with |- context[gather_cols ?t1 count n pts r] => specialize (IH t1);
        destruct (gather_cols t1 count n pts r) as [t2 [x|x]] end; auto. }
    rewrite G. auto.
  - unfold t_resize. destruct (_ <? _); auto.
Qed.

Theorem builder pc lk (h : list (pop S)) : batches_ok h -> forall p p' cur,
  t_lenkey (px_table p) = lk -> store_rel (pc_terminal pc) (px_store p) cur ->
  prun pc p h = (p', Ok tt) ->
  exists ops, px_table p' = run (px_table p) ops /\
    filter (fun o => negb (is_add o)) ops = uses h /\
    (forall a, Forall2 (records (pc_terminal pc) lk) (added_by a (additions ops))
                 (filter (kept pc lk) (episodes (cur a) (stream a h)))) /\
    store_rel (pc_terminal pc) (px_store p') (fun a => running (cur a) (stream a h)).
Proof.
  induction 1 as [|o h Ho _ IH]; intros p p' cur El SR E; cbn [prun] in E.
  - inversion E; subst. exists []. split; auto. split; auto. cbn. split; auto.
  - destruct (pstep pc p o) as [p1 [u|x]] eqn:E1; [|discriminate]. destruct u.
    assert (Q : exists ops1, px_table p1 = run (px_table p) ops1 /\
       filter (fun o => negb (is_add o)) ops1 = uses [o] /\
       (forall a, Forall2 (records (pc_terminal pc) lk) (added_by a (additions ops1))
                 (filter (kept pc lk) (episodes (cur a) (stream a [o])))) /\
       t_lenkey (px_table p1) = lk /\
       store_rel (pc_terminal pc) (px_store p1) (fun a => running (cur a) (stream a [o]))).
    { destruct o as [os rs dr|o]; cbn [pstep] in E1.
      - destruct Ho as (H1 & H2 & H3). unfold proxy_add in E1. rewrite El in E1.
        destruct (collect pc lk rs (px_store p, px_done p, []) os) as [[[store seen] comp] [u|x]] eqn:Ec; [|discriminate].
        destruct u. destruct (submit (px_table p) comp dr) as [t' y] eqn:Es. inversion E1; subst p1 y.
        assert (Hc0 : forall a, In a (dkeys (@nil (Z * episode S))) -> ~ In a (dkeys os)) by (simpl; tauto).
        destruct (@collect_ok pc lk rs H3 os _ _ _ _ cur SR H1 H2 Hc0 Ec) as (new & C1 & C2 & C3).
        cbn [fst snd app] in *. subst comp.
        destruct (submit_ok _ _ _ Es) as (l & R1 & R2 & R3). rewrite El in R2.
        assert (Est : forall a, stream a [PAdd os rs dr] = now a os rs).
        { intros a. unfold stream, now. cbn [flat_map]. rewrite app_nil_r. auto. }
        exists (map as_op l). cbn [px_table px_store]. split; auto. split.
        { clear. induction l; simpl; auto. }
        split.
        { intros a. rewrite additions_as_op, (@added_mine a lk l new R2), Est. apply Forall2_touch. auto. }
        split; [congruence|]. eapply store_ext; [|exact C2]. intros a. cbv beta. rewrite Est. auto.
      - inversion E1; subst p1. exists [o]. cbn [px_table px_store]. split; auto.
        assert (Ea : is_add o = false) by (destruct o; auto; destruct Ho).
        split; [cbn; rewrite Ea; auto|]. split.
        { intros a. destruct o; try discriminate; cbn; constructor. }
        split; [rewrite step_lk; auto|]. auto. }
    destruct Q as (ops1 & Q1 & Q2 & Q3 & Q4 & Q5).
    destruct (IH p1 p' _ Q4 Q5 E) as (ops2 & R1 & R2 & R3 & R4).
    exists (ops1 ++ ops2). split.
    { rewrite R1, Q1. unfold run. rewrite fold_left_app. auto. }
    split. { rewrite filter_app, Q2, R2. cbn [uses flat_map]. rewrite app_nil_r. auto. }
    split.
    { intros a. rewrite additions_app, added_app, stream_cons, episodes_app, filter_app. apply Forall2_app; auto. }
    eapply store_ext; [|exact R4]. intros a. cbv beta. rewrite (stream_cons a o h), running_app. auto.
Qed.

(** C27 *)
Lemma builder_new pc (t0 : table S) h p : batches_ok h -> prun pc (px_new t0) h = (p, Ok tt) ->
  exists ops, px_table p = run t0 ops /\
    filter (fun o => negb (is_add o)) ops = uses h /\
    forall a, Forall2 (records (pc_terminal pc) (t_lenkey t0)) (added_by a (additions ops))
                 (filter (kept pc (t_lenkey t0)) (episodes [] (stream a h))) /\
              (In a (dkeys (px_store p)) <-> running [] (stream a h) <> []).
Proof.
  intros Hb E.
  destruct (@builder pc (t_lenkey t0) h Hb (px_new t0) p (fun _ => [])) as (ops & A1 & A2 & A3 & A4 & A5); auto.
  { split; [constructor|]. cbn. auto. }
  exists ops. split; auto. split; auto. intros a. split; auto. specialize (A5 a). cbv beta in A5.
  destruct (dget (px_store p) a) as [e|] eqn:Ed.
  - apply dget_Some_key in Ed. tauto.
  - apply dget_None in Ed. rewrite A5. tauto.
Qed.
End Proofs.
