(** * CollProofs: proofs about the collector *)
From Coq Require Import Permutation.
From Verif Require Import Py PyLemmas MemModel MemSpec MemProofs ProxyModel ProxySpec ProxyProofs ProxyMore EnvModel EnvSpec EnvProofs EnvMore CollModel CollSpec.
Set Implicit Arguments.
Unset Strict Implicit.
Open Scope string_scope.
Open Scope list_scope.
Open Scope Z_scope.

(** ** Histories of the environment *)
Section EnvHist.
Context {O A W : Type}.
Variable dy : dyn O A W.
Notation output := (dict Z (dobs O W)).
Fixpoint efinal (e : env O) (calls : list (ecall O A)) : env O :=
  match calls with [] => e | k :: r => efinal (fst (ecall_step dy e k)) r end.
Lemma efinal_app e a b : efinal e (a ++ b) = efinal (efinal e a) b.
Proof. revert e. induction a as [|k a IH]; intros e; cbn [app efinal]; auto. Qed.
Lemma ehistory_snoc e calls k : ehistory dy e (calls ++ [k]) = ehistory dy e calls ++ [mkEvent k (snd (ecall_step dy (efinal e calls) k))].
Proof.
  revert e. induction calls as [|k0 r IH]; intros e; cbn [app ehistory efinal].
  - destruct (ecall_step dy e k). auto.
  - destruct (ecall_step dy e k0) as [e1 x]. cbn [fst]. rewrite IH. auto.
Qed.

Lemma views_trace a (outs : list output) : trace a outs = map d_state (views a outs).
Proof. induction outs as [|d r IH]; auto. unfold trace, views in *. cbn [flat_map]. rewrite map_app, IH. destruct (dget d a); auto. Qed.
Lemma views_app a (x y : list output) : views a (x ++ y) = views a x ++ views a y.
Proof. apply flat_map_app. Qed.
Lemma views_nil a (outs : list output) : trace a outs = [] -> views a outs = [].
Proof. rewrite views_trace. destruct (views a outs); auto. discriminate. Qed.

Lemma waiting_In (d : output) a : NoDup (dkeys d) -> (In a (waiting d) <-> exists x, dget d a = Some x /\ is_final (d_state x) = false).
Proof.
  intros N. unfold waiting. rewrite in_map_iff. split.
  - intros ([b x] & <- & I). apply filter_In in I. destruct I as [I F]. exists x. split; [apply In_dget; auto|]. cbn in *. destruct (is_final (d_state x)); auto; discriminate.
  - intros (x & E & F). exists (a, x). split; auto. apply filter_In. split; [apply dget_In; auto|]. cbn. rewrite F. auto.
Qed.
Lemma waiting_NoDup (d : output) : NoDup (dkeys d) -> NoDup (waiting d).
Proof.
  unfold waiting, dkeys. induction d as [|[a x] r IH]; intros N; [constructor|]. inversion N as [|? ? Na Nr]; subst. cbn [filter snd].
  destruct (negb _); auto. cbn [map fst]. constructor; auto. intros I. apply Na. apply in_map_iff in I. destruct I as (y & <- & I). apply in_map. apply filter_In in I. tauto.
Qed.
End EnvHist.

(** ** The proxy *)
Section Coll.
Context {S : Type} `{HS : Scalar S}.
Notation row := (list S).
Notation output := (dict Z (dobs row row)).

Lemma dget_as_batch key (d : output) a : dget (as_batch key d) a = option_map (as_obs key) (dget d a).
Proof. induction d as [|[b x] r IH]; auto. cbn. destruct (a =? b); auto. Qed.
Lemma dkeys_as_batch key (d : output) : dkeys (as_batch key d) = dkeys d.
Proof. unfold dkeys, as_batch. rewrite map_map. auto. Qed.
Lemma state_as_obs key (x : dobs row row) : o_state (as_obs key x) = d_state x. Proof. auto. Qed.

Lemma collect_keys pc lk rs os : forall store seen comp st', NoDup (dkeys os) -> NoDup (dkeys store) ->
  collect (S:=S) pc lk rs (store, seen, comp) os = (st', Ok tt) ->
  NoDup (dkeys (fst (fst st'))) /\
  forall a, In a (dkeys (fst (fst st'))) <-> match dget os a with Some o => is_final (o_state o) = false | None => In a (dkeys store) end.
Proof.
  induction os as [|[b o] r IH]; intros store seen comp st' N NS E; cbn [collect] in E.
  - injection E as <-. cbn. split; auto. tauto.
  - inversion N as [|? ? Nb N']; subst. fold (dkeys r) in *.
    destruct (collect_one pc lk rs (store, seen, comp) b o) as [st1 [u|e]] eqn:E1; [|discriminate].
    assert (Q : NoDup (dkeys (fst (fst st1))) /\ forall a, In a (dkeys (fst (fst st1))) <-> if a =? b then is_final (o_state o) = false else In a (dkeys store)).
    { unfold collect_one in E1. destruct (if is_initial (o_state o) then _ else _) as [d|e]; [|discriminate].
      destruct (is_final (o_state o)) eqn:F.
      - destruct (dget store b) as [e|] eqn:G; injection E1 as <-; cbn [fst].
        + split; [apply NoDup_ddel; auto|]. intros a. rewrite In_dkeys_ddel by auto. destruct (Z.eqb_spec a b); intuition congruence.
        + split; auto. intros a. apply dget_None in G. destruct (Z.eqb_spec a b); [subst; intuition congruence|tauto].
      - destruct (dget rs b); [|discriminate]. injection E1 as <-. cbn [fst]. split; [apply NoDup_dset; auto|].
        intros a. rewrite In_dkeys_dset. destruct (Z.eqb_spec a b); intuition congruence. }
    destruct st1 as [[store1 seen1] comp1]. cbn [fst] in Q. destruct Q as [Q1 Q2].
    destruct (IH _ _ _ _ N' Q1 E) as [I1 I2]. split; auto. intros a. rewrite I2. cbn [dget].
    change (keqb a b) with (a =? b). specialize (Q2 a). destruct (Z.eqb_spec a b) as [Eab|Ne].
    + rewrite Eab in *. destruct (dget r b) eqn:G; [apply dget_Some_key in G; tauto|]. auto.
    + destruct (dget r a); tauto.
Qed.

Lemma add_keys pc (p p' : proxy S) os rs dr : NoDup (dkeys os) -> NoDup (dkeys (px_store p)) -> proxy_add pc p os rs dr = (p', Ok tt) ->
  NoDup (dkeys (px_store p')) /\
  forall a, In a (dkeys (px_store p')) <-> match dget os a with Some o => is_final (o_state o) = false | None => In a (dkeys (px_store p)) end.
Proof.
  intros N NS E. unfold proxy_add in E. destruct (collect _ _ _ _ _) as [[[store seen] comp] [u|e]] eqn:Ec; [|discriminate].
  destruct u. destruct (submit (px_table p) comp dr) as [t x]. injection E as <- _. cbn [px_store].
  apply (collect_keys N NS Ec).
Qed.

Lemma prun_snoc pc (h : list (pop S)) o p p1 : prun pc p h = (p1, Ok tt) -> prun pc p (h ++ [o]) = pstep pc p1 o.
Proof.
  revert p. induction h as [|x r IH]; intros p E; cbn [app prun] in *.
  - injection E as ->. destruct (pstep pc p1 o) as [p2 [u|e]]; auto. destruct u. auto.
  - destruct (pstep pc p x) as [p2 [u|e]]; [|discriminate]. auto.
Qed.
Lemma stream_snoc a (h : list (pop S)) o : stream a (h ++ [o]) = stream a h ++ stream a [o].
Proof. unfold stream. rewrite flat_map_app. auto. Qed.

(** One episode of moments from one episode of states. *)
Lemma running_no_final (ms cur : list (moment (S := S))) : Forall (fun m : moment (S := S) => o_state (fst m) = RUNNING) ms -> running cur ms = cur ++ ms /\ episodes cur ms = [].
Proof.
  intros F. revert cur. induction F as [|m r Fm _ IH]; intros cur; cbn [running episodes]; [rewrite app_nil_r; auto|].
  rewrite Fm. cbn [is_final]. destruct (IH (cur ++ [m])) as [-> ->]. rewrite <- app_assoc. auto.
Qed.
Lemma one_episode_stream (ms : list (moment (S := S))) : one_episode (map (fun m : moment (S := S) => o_state (fst m)) ms) ->
  (List.length (episodes [] ms) <= 1)%nat /\ Forall proper (episodes [] ms).
Proof.
  intros [E|(k & fin & E & F)].
  - destruct ms; [|discriminate]. cbn. split; [lia|constructor].
  - destruct ms as [|m0 ms]; [discriminate|]. cbn [map] in E. injection E as E0 E.
    assert (exists mid last, ms = mid ++ last /\ Forall (fun m : moment (S := S) => o_state (fst m) = RUNNING) mid /\ map (fun m : moment (S := S) => o_state (fst m)) last = fin) as (mid & last & -> & FM & EL).
    { exists (firstn k ms), (skipn k ms). rewrite firstn_skipn. split; auto. split.
      - apply Forall_forall. intros m I. assert (J : In (o_state (fst m)) (map (fun m : moment (S := S) => o_state (fst m)) (firstn k ms))) by (apply (in_map (fun m : moment (S := S) => o_state (fst m))); auto).
        rewrite <- firstn_map, E, firstn_app, repeat_length, Nat.sub_diag, firstn_O, app_nil_r in J.
        rewrite firstn_all2 in J by (rewrite repeat_length; lia). apply repeat_spec in J. auto.
      - rewrite <- skipn_map, E, skipn_app, repeat_length, Nat.sub_diag. rewrite skipn_all2 by (rewrite repeat_length; lia). auto. }
    cbn [episodes]. rewrite E0. cbn [is_final app]. rewrite episodes_app. destruct (@running_no_final mid [m0] FM) as [-> ->]. cbn [app].
    destruct F as [->|(s & Fs & ->)].
    + destruct last; [|discriminate]. cbn. split; [lia|constructor].
    + destruct last as [|ml [|? ?]]; try discriminate. cbn [map] in EL. injection EL as EL. cbn [episodes]. rewrite EL, Fs. cbn [app episodes]. cbn.
      split; [lia|]. constructor; auto. exists m0, mid, ml. rewrite EL. auto.
Qed.
Lemma one_episode_prefix x y : one_episode (x ++ y) -> one_episode x.
Proof.
  intros [E|(k & fin & E & F)].
  - apply app_eq_nil in E. left. tauto.
  - destruct x as [|s x]; [left; auto|]. right. cbn [app] in E. injection E as -> E.
    destruct (le_lt_dec (List.length x) k) as [L|L].
    + exists (List.length x), []. split; auto. f_equal. rewrite app_nil_r.
      assert (E' : firstn (List.length x) (x ++ y) = firstn (List.length x) (repeat RUNNING k ++ fin)) by congruence.
      rewrite firstn_app, Nat.sub_diag, firstn_O, app_nil_r, firstn_all in E'. rewrite E'. rewrite firstn_app, repeat_length.
      replace (List.length x - k)%nat with 0%nat by lia. rewrite firstn_O, app_nil_r.
      clear -L. revert L. generalize (List.length x). intros m. revert k. induction m as [|m IH]; intros [|k] L; auto; try lia. cbn. f_equal. apply IH. lia.
    + exists k, fin. split; auto. f_equal.
      assert (LE : List.length (x ++ y) = List.length (repeat RUNNING k ++ fin)) by congruence. rewrite !app_length, repeat_length in LE.
      destruct F as [->|(s' & Fs & ->)]; cbn [List.length] in LE; [lia|]. assert (y = []) by (destruct y; auto; cbn in *; lia). subst y.
      rewrite app_nil_r in E. auto.
Qed.
End Coll.
