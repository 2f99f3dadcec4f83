(** * CollMore: the invariant of the collector *)
From Coq Require Import Permutation.
From Verif Require Import Py PyLemmas MemModel MemSpec MemProofs ProxyModel ProxySpec ProxyProofs ProxyMore EnvModel EnvSpec EnvProofs EnvMore CollModel CollSpec CollProofs.
Set Implicit Arguments.
Unset Strict Implicit.
Open Scope string_scope.
Open Scope list_scope.
Open Scope Z_scope.

Section Coll.
Context {S : Type} `{HS : Scalar S}.
Notation row := (list S).
Notation output := (dict Z (dobs row row)).
Variables (c : kconf S) (n : nat) (t0 : table S).
Notation dy := (kc_dyn c).
Notation hist k := (ehistory dy (make_env n) (k_calls k)).
Notation told k := (outputs (hist k)).

Definition given_to (a : Z) (h : list (pop S)) : list (obs S) := map fst (stream a h).
Lemma given_snoc a h os rs dr : given_to a (h ++ [PAdd os rs dr]) = given_to a h ++ match dget os a with Some ob => [ob] | None => [] end.
Proof. unfold given_to. rewrite stream_snoc, map_app. f_equal. unfold stream. cbn. destruct (dget os a); auto. Qed.

(** What has been recorded is right, also when an exception ended the run. *)
Record recorded (k : coll S) : Prop := {
  (* What the memory was given is a prefix of what the environment said. *)
  rc_faith : forall a, exists l rest, views a (told k) = l ++ rest /\ given_to a (k_uses k) = map (as_obs (kc_key c)) l;
  rc_batches : agent_dicts c -> batches_ok (k_uses k);
  rc_conf : forall ns, agent_names c ns -> forall a, Forall (conforms (mkSchema [kc_key c] ns)) (stream a (k_uses k));
  rc_ids : Forall (fun o => match o with PAdd os _ _ => Forall (fun a => 0 <= a) (dkeys os) | PUse o => o <> OClear end) (k_uses k) }.

Record sound (k : coll S) : Prop := {
  so_rec : recorded k;
  so_env : k_env k = efinal dy (make_env n) (k_calls k);
  so_good : good n (hist k) (k_env k);
  so_next : 0 <= e_next (k_env k);
  so_keys : NoDup (dkeys (k_obs k));
  so_nonneg : Forall (fun a => 0 <= a) (dkeys (k_obs k));
  so_now : forall a d, dget (k_obs k) a = Some d -> exists l, views a (told k) = l ++ [d] /\ given_to a (k_uses k) = map (as_obs (kc_key c)) l;
  so_rewards : forall a d, dget (k_obs k) a = Some d -> d_state d <> INITIAL -> d_reward d <> None;
  so_prun : prun (kc_proxy c) (px_new t0) (k_uses k) = (k_proxy k, Ok tt);
  so_store : NoDup (dkeys (px_store (k_proxy k)));
  so_seen : forall a, In a (dkeys (px_store (k_proxy k))) -> views a (told k) <> [] }.

Lemma init_sound len : sound (coll_init n t0 len).
Proof.
  constructor; try (cbn; discriminate); try (cbn; contradiction); try solve [constructor].
  - constructor; cbn; [intros a; exists [], []; auto|intros; apply Forall_nil|intros; apply Forall_nil|apply Forall_nil].
  - apply (good_start n).
  - cbn. lia.
Qed.

Definition in_batch (K : list Z) (k : coll S) : Prop :=
  sound k /\ (exists b, last_output (hist k) None = Some (b, k_obs k)) /\
  (forall a, In a (dkeys (px_store (k_proxy k))) <-> In a K \/ exists d, dget (k_obs k) a = Some d /\ d_state d <> INITIAL) /\
  (forall a, In a K -> dget (k_obs k) a = None /\ views a (told k) <> []).

Lemma outputs_snoc (h : list (event row (resp S) row)) ca D : outputs (h ++ [mkEvent ca (Ok D)]) = outputs h ++ [D].
Proof. rewrite outputs_app. auto. Qed.
Lemma outputs_err (h : list (event row (resp S) row)) ca x : outputs (h ++ [mkEvent ca (Err x)]) = outputs h.
Proof. rewrite outputs_app. cbn. apply app_nil_r. Qed.
Lemma last_snoc (h : list (event row (resp S) row)) ca D : last_output (h ++ [mkEvent ca (Ok D)]) None = Some (match ca with CStep _ => true | CReset _ _ => false end, D).
Proof. rewrite last_app. auto. Qed.
Lemma views_one a (D : output) : views a [D] = match dget D a with Some x => [x] | None => [] end.
Proof. unfold views. cbn. apply app_nil_r. Qed.

Lemma stream_add a os rs dr : stream (S := S) a [PAdd os rs dr] = match dget os a with Some ob => [(ob, dget rs a)] | None => [] end.
Proof. unfold stream. cbn. apply app_nil_r. Qed.

Section Step.
Variables (k : coll S) (acts : dict Z (resp S)) (e : env row) (D : output).
Hypothesis SD : sound k.
Hypothesis E : dict_step dy (k_env k) acts = (e, Ok D).
Hypothesis LB : exists b, last_output (hist k) None = Some (b, k_obs k).
Let calls := k_calls k ++ [CStep acts].
Lemma hist_step : ehistory dy (make_env n) calls = hist k ++ [mkEvent (CStep acts) (Ok D)].
Proof. unfold calls. rewrite ehistory_snoc, <- (so_env SD). cbn [ecall_step]. rewrite E. auto. Qed.
Lemma step_env : e = efinal dy (make_env n) calls.
Proof. unfold calls. rewrite efinal_app, <- (so_env SD). cbn [efinal ecall_step]. rewrite E. auto. Qed.
Lemma step_good : good n (ehistory dy (make_env n) calls) e.
Proof. rewrite hist_step. apply (good_step (so_good SD) E). Qed.
Lemma step_told : outputs (ehistory dy (make_env n) calls) = told k ++ [D].
Proof. rewrite hist_step. apply outputs_snoc. Qed.
Lemma step_facts : NoDup (dkeys D)
  /\ (forall id d, dget D id = Some d -> (d_state d = INITIAL /\ d_reward d = None /\ views id (told k) = []) \/ In id (waiting (k_obs k)))
  /\ (forall id, In id (waiting (k_obs k)) -> exists d a, dget D id = Some d /\ dget acts id = Some a /\ d_state d <> INITIAL /\ d_reward d <> None)
  /\ List.length (waiting (k_obs k)) = n.
Proof.
  destruct LB as [b L]. destruct (env_steps (rest := []) hist_step) as (b' & D0 & X1 & X2 & X3 & X4 & X5 & X6).
  assert (D0 = k_obs k) by congruence. subst D0. split; auto. split.
  { intros id d G. destruct (X3 _ _ G) as [(Y1 & Y2 & Y3)|Y]; auto. left. split; auto. split; auto. apply views_nil; auto. }
  split; auto. intros id I. destruct (X4 _ I) as (d & a & o & Y1 & Y2 & (rw & w & Z1 & Z2 & Z3)). exists d, a. split; auto. split; auto.
  split; [rewrite Z3; destruct (dy_done _ _ _ _); [discriminate|]; destruct (_ <=? _); discriminate|rewrite Z2; discriminate].
Qed.
Lemma step_nonneg : Forall (fun a => 0 <= a) (dkeys D) /\ 0 <= e_next e.
Proof.
  destruct (step_case dy acts (gd_sane (so_good SD))) as [(e1 & D1 & cur & al & rows & E1 & ST)|(x & E1)]; rewrite E in E1; [|discriminate].
  injection E1 as <- <-. pose proof (sd_next ST) as N. pose proof (so_next SD). split; [|lia].
  apply Forall_forall. intros a I. apply dget_key in I. destruct I as [d G]. destruct (proj1 (proj2 step_facts) a d G) as [(I & _)|W].
  - destruct (sd_entry ST G) as [(i & r & N1 & N2)|(Y & _)]; [|lia].
    pose proof (sd_old ST N1 N2) as O. rewrite G in O. injection O as ->. exfalso. destruct (over _ _) in I; [unfold final in I; destruct (snd r)|]; discriminate.
  - apply waiting_In in W; [|apply (so_keys SD)]. destruct W as (x & G' & _). pose proof (so_nonneg SD) as F. rewrite Forall_forall in F. apply F. eapply dget_Some_key; eauto.
Qed.

(** The record after the memory was given the observations. *)
Lemma step_recorded k' dr : k_calls k' = calls -> k_uses k' = k_uses k ++ [PAdd (as_batch (kc_key c) (k_obs k)) acts dr] ->
  (exists t d, acts = kc_agent c t d) -> recorded k'.
Proof.
  intros EC EU (t & d0 & EA). destruct (so_rec SD) as [R1 R2 R3 R4]. destruct step_facts as (F1 & F2 & F3 & F4).
  constructor.
  - intros a. rewrite EC, EU, step_told, views_app, views_one, given_snoc, dget_as_batch.
    destruct (dget (k_obs k) a) as [d|] eqn:G; cbn [option_map].
    + destruct (so_now SD G) as (l & V & M). exists (l ++ [d]), (match dget D a with Some x => [x] | None => [] end).
      rewrite V, M, map_app. auto.
    + destruct (R1 a) as (l & rest & V & M). exists l, (rest ++ match dget D a with Some x => [x] | None => [] end).
      rewrite V, M, app_assoc. cbn. rewrite app_nil_r. auto.
  - intros AD. rewrite EU. apply Forall_app. split; [apply R2; auto|]. constructor; [|constructor].
    split; [rewrite dkeys_as_batch; apply (so_keys SD)|]. split.
    + apply Forall_forall. intros x I. unfold as_batch in I. apply in_map_iff in I. destruct I as (y & <- & _). cbn. repeat constructor. auto.
    + rewrite EA. apply AD.
  - intros ns AN a. rewrite EU, stream_snoc. apply Forall_app. split; [apply R3; auto|]. rewrite stream_add, dget_as_batch.
    destruct (dget (k_obs k) a) as [d|] eqn:G; cbn [option_map]; [|constructor]. constructor; [|constructor].
    split; [|split].
    + intros key. unfold saw. cbn. destruct (String.eqb_spec key (kc_key c)) as [Ek|Ek]; split; try discriminate; auto; try (intros [Q|[]]; congruence); congruence.
    + cbn [fst as_obs o_state]. intros NF. assert (W : In a (waiting (k_obs k))) by (apply waiting_In; [apply (so_keys SD)|eauto]).
      destruct (F3 _ W) as (d' & r & _ & GA & _). intros key. unfold answered. cbn [snd]. rewrite GA. rewrite EA in GA. apply (AN _ _ _ _ GA).
    + cbn [fst as_obs o_state]. intros NI. unfold received. cbn. destruct (d_reward d) eqn:ER; [discriminate|]. exfalso. apply (so_rewards SD G); auto. intros I. rewrite I in NI. discriminate.
  - rewrite EU. apply Forall_app. split; auto. constructor; [|constructor]. rewrite dkeys_as_batch. apply (so_nonneg SD).
Qed.
End Step.

(** One sample. *)
Lemma sample_ok K k k' r : in_batch K k -> collect_sample c k = (k', r) ->
  recorded k' /\ forall u, r = Ok u -> in_batch K k' /\ k_len k' = k_len k /\ k_bp k' = k_bp k /\ exists W, NoDup W /\ List.length W = n /\ (forall a, In a W -> ~ In a K) /\
    forall a, In a (dkeys (px_store (k_proxy k'))) <-> In a K \/ In a W.
Proof.
  intros (SD & LB & ST & KK) E. unfold collect_sample in E. set (acts := kc_agent c (k_asked k) (k_obs k)) in *.
  destruct (dict_step dy (k_env k) acts) as [e [D|x]] eqn:ES.
  2:{ injection E as <- <-. split; [|discriminate]. destruct (so_rec SD) as [R1 R2 R3 R4]. constructor; cbn [k_calls k_uses]; auto.
      intros a. rewrite ehistory_snoc, <- (so_env SD). cbn [ecall_step]. rewrite ES. cbn [snd]. rewrite outputs_err. auto. }
  destruct (proxy_add (kc_proxy c) (k_proxy k) (as_batch (kc_key c) (k_obs k)) acts (kc_draws c (k_asked k))) as [p y] eqn:EP.
  assert (RC : forall o b, recorded (mkColl e p o (k_len k) b (Datatypes.S (k_asked k)) (k_calls k ++ [CStep acts]) (k_uses k ++ [PAdd (as_batch (kc_key c) (k_obs k)) acts (kc_draws c (k_asked k))]))).
  { intros o b. eapply (step_recorded SD ES LB); [reflexivity|reflexivity|unfold acts; eauto]. }
  destruct y as [u|y]; injection E as <- <-; [|split; [apply RC|discriminate]].
  split; [apply RC|]. intros _ _. destruct u.
  destruct (step_facts SD ES LB) as (F1 & F2 & F3 & F4). destruct (step_nonneg SD ES LB) as [N1 N2].
  assert (NB : NoDup (dkeys (as_batch (kc_key c) (k_obs k)))) by (rewrite dkeys_as_batch; apply (so_keys SD)).
  destruct (add_keys NB (so_store SD) EP) as [AK1 AK2].
  assert (ST' : forall a, In a (dkeys (px_store p)) <-> In a K \/ In a (waiting (k_obs k))).
  { intros a. rewrite AK2, dget_as_batch, waiting_In by (apply (so_keys SD)). destruct (dget (k_obs k) a) as [d|] eqn:G; cbn [option_map].
    - rewrite state_as_obs. split.
      + intros F. right. eauto.
      + intros [I|(x & Ex & F)]; [apply KK in I; destruct I; congruence|congruence].
    - rewrite ST. split; [intros [I|(d & Ed & _)]; [auto|congruence]|intros [I|(d & Ed & _)]; [auto|congruence]]. }
  assert (WN : forall a, In a (waiting (k_obs k)) -> exists d, dget (k_obs k) a = Some d).
  { intros a W. apply waiting_In in W; [|apply (so_keys SD)]. destruct W as (d & G & _). eauto. }
  split; [|split; [auto|split; [auto|]]].
  2:{ exists (waiting (k_obs k)). split; [apply waiting_NoDup; apply (so_keys SD)|]. split; auto. split; auto.
      intros a W I. destruct (WN a W) as [d G]. apply KK in I. destruct I. congruence. }
  split; [|split; [|split]]; cbn [k_calls k_obs k_proxy].
  - constructor; cbn [k_calls k_obs k_proxy k_env k_uses]; auto.
    + apply (step_env SD ES).
    + apply (step_good SD ES).
    + intros a d G. rewrite (step_told SD ES), views_app, views_one, G, given_snoc, dget_as_batch.
      destruct (F2 _ _ G) as [(I1 & I2 & I3)|W].
      * exists []. rewrite I3. split; auto. destruct (rc_faith (so_rec SD) a) as (l & rest & V & M). rewrite I3 in V. symmetry in V. apply app_eq_nil in V. destruct V as [-> _]. rewrite M.
        destruct (dget (k_obs k) a) as [d'|] eqn:G'; auto. destruct (so_now SD G') as (l' & V' & _). rewrite I3 in V'. destruct l'; discriminate.
      * destruct (WN a W) as [d' G']. rewrite G'. cbn [option_map]. destruct (so_now SD G') as (l & V & M). exists (l ++ [d']). rewrite V, M, map_app. auto.
    + intros a d G NI. destruct (F2 _ _ G) as [(I1 & _)|W]; [congruence|]. destruct (F3 _ W) as (d' & r' & G' & _ & _ & RW). congruence.
    + rewrite (prun_snoc _ (so_prun SD)). cbn [pstep]. auto.
    + intros a I. rewrite (step_told SD ES), views_app. apply ST' in I. destruct I as [I|I].
      * apply KK in I. destruct I as [_ V]. destruct (views a (told k)); [congruence|discriminate].
      * destruct (WN a I) as [d G]. destruct (so_now SD G) as (l & V & _). rewrite V. destruct l; discriminate.
  - exists true. rewrite (hist_step SD ES), last_snoc. auto.
  - intros a. rewrite ST'. split; (intros [I|I]; [auto|right]).
    + destruct (F3 _ I) as (d & r' & G & _ & NI & _). eauto.
    + destruct I as (d & G & NI). destruct (F2 _ _ G) as [(I1 & _)|W]; [congruence|auto].
  - intros a I. destruct (KK _ I) as [G V]. split.
    + destruct (dget D a) as [d|] eqn:GD; auto. destruct (F2 _ _ GD) as [(_ & _ & I3)|W]; [congruence|]. destruct (WN a W) as [d' G']. congruence.
    + rewrite (step_told SD ES), views_app. destruct (views a (told k)); [congruence|discriminate].
Qed.

Lemma samples_ok K m : forall k k' r, in_batch K k -> collect_samples c m k = (k', r) ->
  recorded k' /\ (r = Ok tt -> in_batch K k' /\ k_len k' = k_len k /\ k_bp k' = k_bp k /\ (m <> 0%nat -> exists W, NoDup W /\ List.length W = n /\ (forall a, In a W -> ~ In a K) /\
    forall a, In a (dkeys (px_store (k_proxy k'))) <-> In a K \/ In a W)).
Proof.
  induction m as [|m IH]; intros k k' r IB E; cbn [collect_samples] in E.
  - injection E as <- <-. split; [apply (so_rec (proj1 IB))|]. intros _. split; auto. split; auto. split; auto. congruence.
  - destruct (collect_sample c k) as [k1 [u|x]] eqn:E1.
    + destruct (sample_ok IB E1) as [R1 R2]. destruct (R2 u eq_refl) as (IB1 & L1 & B1 & W1).
      destruct (IH _ _ _ IB1 E) as [Q1 Q2]. split; auto. intros ->. destruct (Q2 eq_refl) as (IB2 & L2 & B2 & W2).
      split; auto. split; [congruence|]. split; [congruence|]. intros _. destruct m as [|m]; [|apply W2; discriminate].
      cbn in E. injection E as <-. exact W1.
    + injection E as <- <-. split; [apply (sample_ok IB E1)|discriminate].
Qed.
End Coll.
