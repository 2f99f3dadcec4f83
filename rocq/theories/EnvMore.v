(** * EnvMore: histories of the environment *)
From Verif Require Import Py PyLemmas ProxyModel EnvModel EnvSpec EnvProofs.
Set Implicit Arguments.
Unset Strict Implicit.
Open Scope list_scope.
Open Scope Z_scope.

Section More.
Context {O A W : Type}.
Notation event := (event O A W).
Notation output := (dict Z (dobs O W)).
Notation env := (env O).
Variable dy : dyn O A W.

Definition opened (l : list estate) : Prop := exists k, l = INITIAL :: repeat RUNNING k.
Lemma opened_one l : opened l -> one_episode l.
Proof. intros [k ->]. right. exists k, []. rewrite app_nil_r. auto. Qed.
Lemma opened_run l : opened l -> opened (l ++ [RUNNING]).
Proof. intros [k ->]. exists (S k). cbn [app]. f_equal. symmetry. apply repeat_cons. Qed.
Lemma opened_end l s : opened l -> is_final s = true -> one_episode (l ++ [s]).
Proof. intros [k ->] F. right. exists k, [s]. split; auto. right. eauto. Qed.

Lemma outputs_app (h : list event) ev : outputs (h ++ [ev]) = outputs h ++ match ev_answer ev with Ok d => [d] | Err _ => [] end.
Proof. unfold outputs. rewrite flat_map_app. cbn [flat_map]. rewrite app_nil_r. auto. Qed.
Lemma trace_app id (a b : list output) : trace id (a ++ b) = trace id a ++ trace id b.
Proof. unfold trace. apply flat_map_app. Qed.
Lemma last_app (h : list event) ev acc : last_output (h ++ [ev]) acc =
  match ev_answer ev with Ok d => Some (match ev_call ev with CStep _ => true | CReset _ _ => false end, d) | Err _ => last_output h acc end.
Proof. revert acc. induction h as [|x h IH]; intros acc; cbn [app last_output]; auto. Qed.
Lemma since_app (h : list event) ev n : steps_since (h ++ [ev]) n =
  match ev_answer ev with Ok _ => match ev_call ev with CStep _ => steps_since h n + 1 | CReset _ _ => 0 end | Err _ => steps_since h n end.
Proof. revert n. induction h as [|x h IH]; intros n; cbn [app steps_since]; auto. Qed.
Lemma len_app (h : list event) ev n : rollout_len (h ++ [ev]) n = match ev_answer ev, ev_call ev with Ok _, CReset _ l => l | _, _ => rollout_len h n end.
Proof. revert n. induction h as [|x h IH]; intros n; cbn [app rollout_len]; auto. Qed.
Lemma made_app (h : list event) ev : steps_made (h ++ [ev]) = (steps_made h + match ev_answer ev, ev_call ev with Ok _, CStep _ => 1 | _, _ => 0 end)%nat.
Proof. unfold steps_made. rewrite filter_app, app_length. cbn [filter]. destruct (ev_answer ev), (ev_call ev); auto. Qed.

Definition ready (e : env) (cur : list O) : Prop := e_current e = Some cur /\ List.length cur = e_num e.
Record live (h : list event) (e : env) (cur : list O) (b : bool) (D : output) : Prop := {
  lv_last : last_output h None = Some (b, D);
  lv_keys : NoDup (dkeys D);
  lv_ids : forall i id, nth_error (e_ids e) i = Some id ->
     exists d o, dget D id = Some d /\ is_final (d_state d) = false /\ opened (trace id (outputs h)) /\ nth_error cur i = Some o
       /\ (d_obs d = o \/ (b = true /\ d_state d = INITIAL));
  lv_waiting : forall id d, dget D id = Some d -> is_final (d_state d) = false -> In id (e_ids e);
  lv_time : e_timestep e = steps_since h 0;
  lv_len : e_len e = rollout_len h 0 }.
Record good (n : nat) (h : list event) (e : env) : Prop := {
  gd_sane : sane e;
  gd_num : e_num e = n;
  gd_calls : e_calls e = steps_made h;
  gd_episodes : forall id, one_episode (trace id (outputs h));
  gd_fresh : forall id, e_next e <= id -> trace id (outputs h) = [];
  gd_live : forall cur, ready e cur -> exists b D, live h e cur b D }.

Lemma good_start n : good n [] (make_env n).
Proof.
  constructor; auto.
  - split; [apply new_ids_length|]. split; [apply new_ids_NoDup|]. split; [|exact I]. intros id H. apply new_ids_In in H. simpl. lia.
  - intros id. left. auto.
  - intros cur [H _]. discriminate.
Qed.
Lemma combine_nth (X Y : Type) (a : list X) (b : list Y) i x y : nth_error a i = Some x -> nth_error b i = Some y -> nth_error (combine a b) i = Some (x, y).
Proof. revert b i. induction a as [|p a IH]; intros [|q b] [|i] H1 H2; cbn in *; try discriminate; [congruence|auto]. Qed.
Lemma combine_keys (X Y : Type) (a : list X) (b : list Y) : (List.length a <= List.length b)%nat -> map fst (combine a b) = a.
Proof. revert b. induction a as [|p a IH]; intros [|q b] H; cbn in *; auto; [lia|]. f_equal. apply IH. lia. Qed.

Lemma good_reset n h e obs l e' x : good n h e -> dict_reset e obs l = (e', x) -> good n (h ++ [mkEvent (CReset obs l) x]) e'.
Proof.
  intros [G1 G2 G3 G4 G5 G6] H. unfold dict_reset in H. destruct (Nat.ltb_spec (List.length obs) (e_num e)) as [L|L].
  - injection H as <- <-. constructor; cbn [e_num e_next e_ids e_calls e_current].
    + split; [apply new_ids_length|]. split; [apply new_ids_NoDup|]. split; [|reflexivity]. cbn [e_ids e_next]. intros id I. apply new_ids_In in I. lia.
    + auto.
    + rewrite made_app. cbn. lia.
    + intros id. rewrite outputs_app. cbn [ev_answer]. rewrite app_nil_r. auto.
    + intros id I. rewrite outputs_app. cbn [ev_answer]. rewrite app_nil_r. apply G5. lia.
    + intros cur [E1 E2]. cbn in E1, E2. injection E1 as <-. lia.
  - set (ids := new_ids (e_num e) (e_next e)) in *.
    assert (LK : map fst (combine ids obs) = ids) by (apply combine_keys; unfold ids; rewrite new_ids_length; auto).
    assert (KE : dkeys (map (fun y : Z * O => (fst y, mkDobs INITIAL (snd y) (None : option W))) (combine ids obs)) = ids).
    { unfold dkeys. rewrite map_map. cbn [fst]. exact LK. }
    rewrite dupdate_nil in H by (rewrite KE; apply new_ids_NoDup).
    set (D := map (fun y : Z * O => (fst y, mkDobs INITIAL (snd y) (None : option W))) (combine ids obs)) in *.
    injection H as <- <-.
    assert (DI : forall id d, dget D id = Some d -> In id ids /\ d_state d = INITIAL).
    { intros id d G. apply dget_In in G. unfold D in G. apply in_map_iff in G. destruct G as ([a b] & E & I). cbn [fst snd] in E.
      injection E as <- <-. apply in_combine_l in I. auto. }
    assert (TR : forall id, trace id (outputs (h ++ [mkEvent (CReset obs l) (Ok D)])) =
       trace id (outputs h) ++ match dget D id with Some d => [d_state d] | None => [] end).
    { intros id. rewrite outputs_app, trace_app. cbn [ev_answer trace flat_map]. rewrite app_nil_r. auto. }
    constructor; cbn [e_num e_next e_ids e_calls e_current].
    + split; [apply new_ids_length|]. split; [apply new_ids_NoDup|]. split; [|reflexivity]. cbn [e_ids e_next]. intros id I. apply new_ids_In in I. lia.
    + auto.
    + rewrite made_app. cbn. lia.
    + intros id. rewrite TR. destruct (dget D id) as [d|] eqn:G; [|rewrite app_nil_r; auto]. destruct (DI _ _ G) as [I E]. apply new_ids_In in I.
      rewrite G5 by lia. rewrite E. apply opened_one. exists 0%nat. auto.
    + intros id I. rewrite TR. destruct (dget D id) as [d|] eqn:G; [|rewrite app_nil_r; apply G5; lia].
      destruct (DI _ _ G) as [I' _]. apply new_ids_In in I'. lia.
    + intros cur [E1 E2]. cbn in E1, E2. injection E1 as <-. exists false, D. constructor; cbn [e_ids e_timestep e_len].
      * rewrite last_app. auto.
      * rewrite KE. apply new_ids_NoDup.
      * intros i id N. assert (X : exists o, nth_error obs i = Some o).
        { assert (i < List.length obs)%nat; [|destruct (nth_error obs i) eqn:E; eauto; apply nth_error_None in E; lia].
          assert (i < List.length ids)%nat by (apply nth_error_Some; congruence). unfold ids in *. rewrite new_ids_length in *. lia. }
        destruct X as [o X]. exists (mkDobs INITIAL o None), o.
        assert (G : dget D id = Some (mkDobs INITIAL o None)).
        { apply In_dget; [rewrite KE; apply new_ids_NoDup|]. unfold D. apply in_map_iff. exists (id, o). split; auto.
          apply nth_error_In with (n := i). apply combine_nth; auto. }
        split; auto. split; auto. split; [|auto]. rewrite TR, G. apply nth_error_In in N. apply new_ids_In in N. rewrite G5 by lia. exists 0%nat. auto.
      * intros id d G F. apply DI in G. tauto.
      * rewrite since_app. auto.
      * rewrite len_app. auto.
Qed.

Lemma final_state (r : O * W * bool) : is_final (d_state (final r)) = true.
Proof. unfold final. cbn. destruct (snd r); auto. Qed.
Lemma good_step n h e acts e' x : good n h e -> dict_step dy e acts = (e', x) -> good n (h ++ [mkEvent (CStep acts) x]) e'.
Proof.
  intros [G1 G2 G3 G4 G5 G6] H. destruct (step_case dy acts G1) as [(e1 & D & cur & al & rows & E & SD)|(y & E)]; rewrite H in E.
  2: { injection E as -> ->. assert (OO : outputs (h ++ [mkEvent (CStep acts) (Err y)]) = outputs h) by (rewrite outputs_app; cbn; apply app_nil_r).
       constructor; auto.
       - rewrite made_app. cbn. lia.
       - intros id. rewrite OO. auto.
       - intros id I. rewrite OO. auto.
       - intros cur R. destruct (G6 cur R) as (b & D & [L1 L2 L3 L4 L5 L6]). exists b, D. constructor; auto.
         + rewrite last_app. auto.
         + intros i id N. rewrite OO. auto.
         + rewrite since_app. auto.
         + rewrite len_app. auto. }
  injection E as -> ->. destruct SD as [S1 S2 S3 S4 S5 S6 S7 S8 S9 S10 (T1 & T2 & T3 & T4 & T5 & T6) S12].
  destruct (gather_nth S2) as [GL _].
  pose proof G1 as (N1 & N2 & N3 & N4).
  assert (R : ready e cur) by (split; auto; congruence).
  destruct (G6 cur R) as (b & D0 & [L1 L2 L3 L4 L5 L6]).
  set (timed := e_len e <=? e_timestep e + 1) in *.
  assert (LR : List.length rows = List.length (e_ids e)) by (rewrite S5, predict_length; congruence).
  assert (ROW : forall i id, nth_error (e_ids e) i = Some id -> exists r, nth_error rows i = Some r).
  { intros i id N. assert (i < List.length rows)%nat by (rewrite LR; apply nth_error_Some; congruence).
    destruct (nth_error rows i) eqn:E; eauto. apply nth_error_None in E. lia. }
  assert (TR : forall id, trace id (outputs (h ++ [mkEvent (CStep acts) (Ok D)])) =
     trace id (outputs h) ++ match dget D id with Some d => [d_state d] | None => [] end).
  { intros id. rewrite outputs_app, trace_app. cbn [ev_answer trace flat_map]. rewrite app_nil_r. auto. }
  constructor; auto.
  - congruence.
  - rewrite T6, made_app, G3. cbn. lia.
  - intros id. rewrite TR. destruct (dget D id) as [d|] eqn:G; [|rewrite app_nil_r; auto].
    destruct (S8 _ _ G) as [(i & r & M1 & M2)|(B & i & o & M1 & M2 & ->)].
    + destruct (L3 _ _ M1) as (d0 & o & _ & _ & OP & _). rewrite (S7 _ _ _ M1 M2) in G. injection G as <-. destruct (over timed r).
      * apply opened_end; auto. apply final_state.
      * apply opened_one. apply opened_run. auto.
    + rewrite G5 by lia. apply opened_one. exists 0%nat. auto.
  - intros id I. rewrite TR. destruct (dget D id) as [d|] eqn:G; [|rewrite app_nil_r; apply G5; lia].
    exfalso. destruct (S8 _ _ G) as [(i & r & M1 & M2)|(B & _)]; [|lia]. apply nth_error_In in M1. apply N3 in M1. lia.
  - intros cur' [C1 C2]. rewrite T1 in C1. injection C1 as <-. exists true, D. constructor; auto.
    + rewrite last_app. auto.
    + intros i id N. assert (LI : (i < List.length (e_ids e))%nat).
      { destruct S12 as (Q1 & _). rewrite N1, <- T2, <- Q1. apply nth_error_Some. congruence. }
      destruct (nth_error (e_ids e) i) as [id0|] eqn:M1; [|apply nth_error_None in M1; lia]. destruct (ROW _ _ M1) as [r M2].
      pose proof (S9 _ _ _ M1 M2) as Y. pose proof (S7 _ _ _ M1 M2) as Z0.
      assert (NC : nth_error (map (fun r => fst (fst r)) rows) i = Some (fst (fst r))) by (rewrite nth_error_map, M2; auto).
      destruct (over timed r).
      * destruct Y as (nw & o & Y1 & Y2 & Y3). rewrite N in Y1. injection Y1 as <-. exists (mkDobs INITIAL o None), (fst (fst r)).
        split; auto. split; auto. split; [|auto]. rewrite TR, Y3, G5 by lia. exists 0%nat. auto.
      * rewrite N in Y. injection Y as <-. exists (running_of r), (fst (fst r)). split; auto. split; auto. split; [|auto].
        rewrite TR, Z0. apply opened_run. destruct (L3 _ _ M1) as (d0 & o & _ & _ & OP & _). auto.
    + intros id d G F. destruct (S8 _ _ G) as [(i & r & M1 & M2)|(B & i & o & M1 & _)]; [|eapply nth_error_In; eauto].
      rewrite (S7 _ _ _ M1 M2) in G. injection G as <-. pose proof (S9 _ _ _ M1 M2) as Y. destruct (over timed r).
      * rewrite final_state in F. discriminate.
      * eapply nth_error_In; eauto.
    + rewrite since_app. cbn. congruence.
    + rewrite len_app. cbn. congruence.
Qed.

(** Every event of every history. *)
Lemma good_history n calls : forall past e h, good n past e -> h = ehistory dy e calls ->
  (forall a ev b, h = a ++ ev :: b -> exists e1, good n (past ++ a) e1 /\ ecall_step dy e1 (ev_call ev) = (snd (e1, fst (ecall_step dy e1 (ev_call ev))), ev_answer ev))
  /\ exists e2, good n (past ++ h) e2.
Proof.
  induction calls as [|k calls IH]; intros past e h G ->; cbn [ehistory].
  - split; [intros [|a l] ev b H; discriminate|]. exists e. rewrite app_nil_r. auto.
  - destruct (ecall_step dy e k) as [e' x] eqn:S0.
    assert (G' : good n (past ++ [mkEvent k x]) e') by (destruct k; cbn in S0; [eapply good_reset|eapply good_step]; eauto).
    destruct (IH _ _ _ G' eq_refl) as [H1 H2]. split.
    + intros [|y a] ev b H; cbn [app] in H; injection H as H H0.
      * subst ev. exists e. rewrite app_nil_r. split; auto. cbn. rewrite S0. auto.
      * subst y. destruct (H1 _ _ _ H0) as (e1 & X1 & X2). exists e1. rewrite <- app_assoc in X1. auto.
    + destruct H2 as [e2 H2]. exists e2. rewrite <- app_assoc in H2. auto.
Qed.

Theorem episodes_ok n calls id : one_episode (trace id (outputs (ehistory dy (make_env n) calls))).
Proof. destruct (good_history (good_start n) eq_refl (calls := calls)) as [_ [e G]]. apply (gd_episodes G). Qed.

(** A step that worked. *)
Theorem step_ok n calls past acts D rest : ehistory dy (make_env n) calls = past ++ mkEvent (CStep acts) (Ok D) :: rest ->
  exists b D0, last_output past None = Some (b, D0) /\ NoDup (dkeys D)
  /\ (forall id d, dget D id = Some d -> (d_state d = INITIAL /\ d_reward d = None /\ trace id (outputs past) = []) \/ In id (waiting D0))
  /\ (forall id, In id (waiting D0) -> exists d0 d a, dget D0 id = Some d0 /\ dget D id = Some d /\ dget acts id = Some a /\
        (~ (b = true /\ d_state d0 = INITIAL) -> predicted dy (steps_made past) (rollout_len past 0 <=? steps_since past 0 + 1) (d_obs d0) a d)
        /\ exists o, predicted dy (steps_made past) (rollout_len past 0 <=? steps_since past 0 + 1) o a d)
  /\ List.length (waiting D0) = n /\ List.length (waiting D) = n.
Proof.
  intros H. destruct (good_history (good_start n) eq_refl (calls := calls)) as [HH _]. destruct (HH _ _ _ H) as (e & G & E). cbn in E, G. clear HH.
  pose proof G as [G1 G2 G3 G4 G5 G6]. destruct (step_case dy acts G1) as [(e1 & D1 & cur & al & rows & E1 & SD)|(y & E1)]; rewrite E1 in E; [|discriminate].
  cbn in E. injection E as ->. pose proof (good_step G E1) as G'.
  destruct SD as [S1 S2 S3 S4 S5 S6 S7 S8 S9 S10 (T1 & T2 & T3 & T4 & T5 & T6) S12].
  destruct (gather_nth S2) as [GL GN]. pose proof G1 as (N1 & N2 & N3 & N4).
  assert (R : ready e cur) by (split; auto; congruence).
  destruct (G6 cur R) as (b & D0 & LV). pose proof LV as [L1 L2 L3 L4 L5 L6]. exists b, D0. split; auto. split; auto.
  set (timed := e_len e <=? e_timestep e + 1) in *.
  assert (LR : List.length rows = List.length (e_ids e)) by (rewrite S5, predict_length; congruence).
  assert (ROW : forall i id, nth_error (e_ids e) i = Some id -> exists r, nth_error rows i = Some r).
  { intros i id N. assert (i < List.length rows)%nat by (rewrite LR; apply nth_error_Some; congruence).
    destruct (nth_error rows i) eqn:E; eauto. apply nth_error_None in E. lia. }
  assert (WT : forall (h : list event) e cur b D0, sane e -> live h e cur b D0 -> NoDup (waiting D0) /\ forall id, In id (waiting D0) <-> In id (e_ids e)).
  { clear. intros h e cur b D0 (N1 & N2 & N3 & N4) [L1 L2 L3 L4 L5 L6]. split.
    - unfold waiting. clear - L2. unfold dkeys in L2. induction D0 as [|[k v] D0 IH]; cbn; [constructor|]. cbn in L2. inversion L2; subst.
      destruct (negb (is_final (d_state v))); cbn; auto. constructor; auto. intros I. apply in_map_iff in I. destruct I as ([k' v'] & E & I). cbn in E. subst.
      apply filter_In in I. destruct I as [I _]. apply H1. apply in_map_iff. exists (k, v'). auto.
    - intros id. unfold waiting. rewrite in_map_iff. split.
      + intros ([k v] & E & I). cbn in E. subst. apply filter_In in I. destruct I as [I F]. cbn in F. apply (L4 id v); [apply In_dget; auto|]. apply negb_true_iff. auto.
      + intros I. apply In_nth_error in I. destruct I as [i I]. destruct (L3 _ _ I) as (d & o & Gd & F & _). exists (id, d). split; auto.
        apply filter_In. split; [apply dget_In; auto|]. cbn. rewrite F. auto. }
  destruct (WT _ _ _ _ _ G1 LV) as [W1 W2].
  split; [|split; [|split]].
  - intros id d Gd. destruct (S8 _ _ Gd) as [(i & r & M1 & M2)|(B & i & o & M1 & M2 & ->)].
    + right. apply W2. eapply nth_error_In; eauto.
    + left. split; auto. split; auto. apply G5. lia.
  - intros id I. apply W2 in I. apply In_nth_error in I. destruct I as [i I]. destruct (ROW _ _ I) as [r M2].
    destruct (L3 _ _ I) as (d0 & o & Gd & F & _ & No & X). destruct (GN _ _ I) as (a & Na & Ga).
    exists d0, (if over timed r then final r else running_of r), a. split; auto. split; [apply (S7 i); auto|]. split; auto.
    assert (P : predicted dy (steps_made past) (rollout_len past 0 <=? steps_since past 0 + 1) o a (if over timed r then final r else running_of r)).
    { rewrite S5 in M2. apply predict_nth in M2. destruct M2 as (o1 & a1 & w & P1 & P2 & P3 & P4 & P5).
      rewrite No in P1. injection P1 as <-. rewrite Na in P2. injection P2 as <-.
      exists (0 + i)%nat, w. rewrite <- L5, <- L6, <- G3. fold timed.
      assert (DO : d_obs (if over timed r then final r else running_of r) = fst (fst r)) by (destruct (over timed r); auto).
      assert (DR : d_reward (if over timed r then final r else running_of r) = Some (snd (fst r))) by (destruct (over timed r); auto).
      rewrite DO, DR. split; auto. split; [f_equal; auto|].
      rewrite <- P5. unfold over, final, running_of. destruct (snd r); cbn; auto. destruct timed; auto. }
    split; [|eauto]. intros NB. destruct X as [->|X]; auto. contradiction.
  - rewrite <- G2, <- N1. apply Nat.le_antisymm; apply NoDup_incl_length; auto; intros z; apply W2.
  - assert (R' : ready e1 (map (fun r => fst (fst r)) rows)).
    { split; auto. rewrite map_length. congruence. }
    destruct (gd_live G' R') as (b' & D' & LV'). pose proof LV' as [L1' _ _ _ _ _]. rewrite last_app in L1'. cbn in L1'. injection L1' as <- <-.
    destruct (WT _ _ _ _ _ S12 LV') as [W1' W2']. destruct S12 as (Q1 & Q2 & _).
    rewrite <- G2, <- T2, <- Q1. apply Nat.le_antisymm; apply NoDup_incl_length; auto; intros z; apply W2'.
Qed.

(** Steps with an action for everybody who waits do not fail. *)
Theorem step_accepted n calls past acts x rest b D0 : (1 <= n)%nat -> Forall (full_reset n) calls ->
  ehistory dy (make_env n) calls = past ++ mkEvent (CStep acts) x :: rest -> last_output past None = Some (b, D0) ->
  (forall id, In id (waiting D0) -> dget acts id <> None) -> exists D, x = Ok D.
Proof.
  intros N1 FR H L AC.
  assert (X : forall calls e h past, Forall (full_reset n) calls -> good n past e -> (last_output past None <> None -> exists cur, ready e cur) -> h = ehistory dy e calls ->
     forall a ev b, h = a ++ ev :: b -> exists e1, good n (past ++ a) e1 /\ (last_output (past ++ a) None <> None -> exists cur, ready e1 cur)
       /\ ecall_step dy e1 (ev_call ev) = (fst (ecall_step dy e1 (ev_call ev)), ev_answer ev)).
  { clear - N1. induction calls as [|k calls IH]; intros e h past FR G RD -> a ev b H; cbn [ehistory] in H; [destruct a; discriminate|].
    inversion FR as [|? ? F1 F2]; subst. destruct (ecall_step dy e k) as [e' x] eqn:S0.
    assert (G' : good n (past ++ [mkEvent k x]) e') by (destruct k; cbn in S0; [eapply good_reset|eapply good_step]; eauto).
    assert (RD' : last_output (past ++ [mkEvent k x]) None <> None -> exists cur, ready e' cur).
    { rewrite last_app. destruct k as [obs l|acts]; cbn in *.
      - unfold dict_reset in S0. destruct (Nat.ltb_spec (List.length obs) (e_num e)) as [L|L].
        + rewrite (gd_num G) in L. lia.
        + injection S0 as <- <-. intros _. exists obs. split; auto. cbn. rewrite (gd_num G). auto.
      - destruct (step_case dy acts (gd_sane G)) as [(e1 & D & cur & al & rows & E & SD)|(y & E)]; rewrite E in S0; injection S0 as <- <-; auto.
        intros _. destruct SD as [S1 S2 S3 S4 S5 S6 S7 S8 S9 S10 (T1 & T2 & _) S12]. exists (map (fun r => fst (fst r)) rows). split; auto.
        destruct (gather_nth S2) as [GL _]. destruct (gd_sane G) as (Q & _). rewrite map_length, S5, predict_length by auto. congruence. }
    destruct a as [|y a]; cbn [app] in H; injection H as H H0.
    - subst ev. exists e. rewrite app_nil_r. split; auto. split; auto. cbn. rewrite S0. auto.
    - subst y. destruct (IH _ _ _ F2 G' RD' eq_refl _ _ _ H0) as (e1 & X1 & X2 & X3). exists e1. rewrite <- app_assoc in X1, X2. auto. }
  destruct (X calls (make_env n) _ [] FR (good_start n) ltac:(intros F; contradiction) eq_refl _ _ _ H) as (e & G & RD & E). cbn in G, RD, E.
  destruct RD as [cur RD]; [congruence|]. destruct (gd_live G RD) as (b' & D' & LV). pose proof LV as [L1 L2 L3 L4 L5 L6].
  rewrite L in L1. injection L1 as <- <-.
  destruct (gather_ok (acts := acts) (ids := e_ids e)) as [al GA].
  { intros id I. apply In_nth_error in I. destruct I as [i I]. destruct (L3 _ _ I) as (d & o & Gd & F & _). apply AC. unfold waiting. apply in_map_iff.
    exists (id, d). split; auto. apply filter_In. split; [apply dget_In; auto|]. cbn. rewrite F. auto. }
  destruct (gather_nth GA) as [GL _]. destruct (gd_sane G) as (Q & _). destruct RD as [R1 R2]. unfold dict_step in E. rewrite GA, R1 in E.
  destruct al as [|a0 al]; [cbn in GL; rewrite <- GL in Q; rewrite (gd_num G) in Q; lia|].
  assert (EQ : Nat.eqb (List.length cur) (List.length (a0 :: al)) = true) by (apply Nat.eqb_eq; congruence). rewrite EQ in E.
  cbv zeta in E. destruct (respawn _ _ _ _ _) as [[[res l] nx] news]. cbn in E. injection E as <-. eauto.
Qed.
(** A reset that worked. *)
Theorem reset_ok n calls past obs l D rest : ehistory dy (make_env n) calls = past ++ mkEvent (CReset obs l) (Ok D) :: rest ->
  List.length D = n /\ NoDup (dkeys D) /\
  forall i o, (i < n)%nat -> nth_error obs i = Some o -> exists id, nth_error D i = Some (id, mkDobs INITIAL o None) /\ trace id (outputs past) = [].
Proof.
  intros H. destruct (good_history (good_start n) eq_refl (calls := calls)) as [HH _]. destruct (HH _ _ _ H) as (e & G & E). cbn in E, G. clear HH.
  pose proof G as [G1 G2 G3 G4 G5 G6]. unfold dict_reset in E. destruct (Nat.ltb_spec (List.length obs) (e_num e)) as [L|L]; [discriminate|].
  set (ids := new_ids (e_num e) (e_next e)) in *.
  assert (LK : map fst (combine ids obs) = ids) by (apply combine_keys; unfold ids; rewrite new_ids_length; auto).
  assert (KE : dkeys (map (fun y : Z * O => (fst y, mkDobs INITIAL (snd y) (None : option W))) (combine ids obs)) = ids).
  { unfold dkeys. rewrite map_map. cbn [fst]. exact LK. }
  rewrite dupdate_nil in E by (rewrite KE; apply new_ids_NoDup). cbn in E. injection E as <-.
  split; [|split].
  - rewrite <- (map_length fst). unfold dkeys in KE. rewrite KE. unfold ids. rewrite new_ids_length. auto.
  - rewrite KE. apply new_ids_NoDup.
  - intros i o Li No. destruct (nth_error ids i) as [id|] eqn:Ni.
    + exists id. split; [rewrite nth_error_map, (combine_nth Ni No); auto|]. apply G5. apply nth_error_In in Ni. apply new_ids_In in Ni. lia.
    + apply nth_error_None in Ni. unfold ids in Ni. rewrite new_ids_length in Ni. lia.
Qed.

Theorem env_steps n calls past acts D rest : ehistory dy (make_env n) calls = past ++ mkEvent (CStep acts) (Ok D) :: rest ->
  exists b D0, last_output past None = Some (b, D0) /\ NoDup (dkeys D)
  /\ (forall id d, dget D id = Some d -> (d_state d = INITIAL /\ d_reward d = None /\ trace id (outputs past) = []) \/ In id (waiting D0))
  /\ (forall id, In id (waiting D0) -> exists d a o, dget D id = Some d /\ dget acts id = Some a /\
        predicted dy (steps_made past) (rollout_len past 0 <=? steps_since past 0 + 1) o a d)
  /\ List.length (waiting D0) = n /\ List.length (waiting D) = n.
Proof.
  intros H. destruct (step_ok H) as (b & D0 & X1 & X2 & X3 & X4 & X5). exists b, D0. split; auto. split; auto. split; auto. split; auto.
  intros id I. destruct (X4 _ I) as (d0 & d & a & Y1 & Y2 & Y3 & _ & o & Y4). exists d, a, o. auto.
Qed.
Theorem follows_model n calls past acts D rest : ehistory dy (make_env n) calls = past ++ mkEvent (CStep acts) (Ok D) :: rest ->
  exists b D0, last_output past None = Some (b, D0) /\
  forall id d0 d a, dget D0 id = Some d0 -> dget D id = Some d -> dget acts id = Some a -> is_final (d_state d0) = false ->
    ~ (b = true /\ d_state d0 = INITIAL) ->
    predicted dy (steps_made past) (rollout_len past 0 <=? steps_since past 0 + 1) (d_obs d0) a d.
Proof.
  intros H. destruct (step_ok H) as (b & D0 & X1 & X2 & X3 & X4 & X5). exists b, D0. split; auto.
  intros id d0 d a G0 G1 G2 F NB. destruct (X4 id) as (d0' & d' & a' & Y1 & Y2 & Y3 & Y4 & _).
  { unfold waiting. apply in_map_iff. exists (id, d0). split; auto. apply filter_In. split; [apply dget_In; auto|]. cbn. rewrite F. auto. }
  rewrite G0 in Y1. injection Y1 as <-. rewrite G1 in Y2. injection Y2 as <-. rewrite G2 in Y3. injection Y3 as <-. auto.
Qed.
Theorem time_up n calls past acts D rest : ehistory dy (make_env n) calls = past ++ mkEvent (CStep acts) (Ok D) :: rest ->
  rollout_len past 0 <= steps_since past 0 + 1 -> forall id d, dget D id = Some d -> d_state d <> RUNNING.
Proof.
  intros H T id d G. destruct (env_steps H) as (b & D0 & X1 & X2 & X3 & X4 & X5). destruct (X3 _ _ G) as [(E & _)|I]; [congruence|].
  destruct (X4 _ I) as (d' & a & o & G' & _ & row & w & _ & _ & E). rewrite G in G'. injection G' as <-. rewrite E.
  destruct (Z.leb_spec (rollout_len past 0) (steps_since past 0 + 1)); [|lia]. destruct (dy_done _ _ _ _); discriminate.
Qed.
End More.
