(** * GymMisc: a real agent, the counter, the thread, HitTheMiddle, and the cases where the code differs *)
From Coq Require Import Reals Lia Lra.
From Verif Require Import Py PyLemmas MemModel MemSpec ProxyModel ProxySpec AgentModel AgentSpec AgentProofs NumModel NumProofs GymModel GymSpec GymProofs GymMore GymRun GymE2E.
Set Implicit Arguments. Unset Strict Implicit.
Open Scope string_scope.
Open Scope list_scope.
Open Scope Z_scope.

(** ** FeatureAgentProxy *)
Section A.
Context {S : Type}.
Lemma feature_answers dobs dact n_out (p : nat -> pargs (S := S) -> res (list (list (list S)))) (f : nat -> list (list S) -> list (list S)) :
  (2 <= n_out)%nat -> (forall i, row_by_row n_out (f i) (p i)) ->
  (forall i o, List.length o = dobs -> exists action rest, f i [o] = action :: rest /\ List.length action = dact) ->
  answers_all dobs dact (fun i os => agent_call (feature_proxy (WithLogprobs (p i)) "obs") os).
Proof.
  intros Ho Hr Hf i os N W Sh.
  assert (Ne : os <> []) by (intros ->; apply W; reflexivity).
  assert (Fit : inputs_fit ["obs"] (fun _ => dobs) os).
  { intros a o k Ia _ [<-|[]]. rewrite Forall_forall in Sh. destruct (Sh _ Ia) as (r & E1 & E2). cbn in E1. exists r. rewrite E1. auto. }
  rewrite (@call_rows _ (feature_proxy (WithLogprobs (p i)) "obs") os (fun _ => dobs) (p i) n_out (f i)); auto; try (repeat constructor; cbn; intuition; fail); try exact I.
  eexists. split; [reflexivity|]. split; [unfold dkeys; rewrite map_map; reflexivity|].
  apply Forall_forall. intros x Ix. apply in_map_iff in Ix as ([a o] & <- & Ix). cbn [snd fst feature_proxy ap_in ap_out].
  unfold waiting in Ix. apply filter_In in Ix as [Ix _]. rewrite Forall_forall in Sh. destruct (Sh _ Ix) as (r & E1 & E2). cbn in E1.
  destruct (Hf i r E2) as (action & rest & E3 & E4). exists action. split; auto. unfold own_input. cbn [map]. rewrite E1. cbn [dget]. destruct (keqb_spec "obs" "obs"); [|congruence]. rewrite E3. destruct rest; reflexivity.
Qed.
End A.

(** ** The counter *)
Lemma simple_counts num_envs per : forall bps inf, fst (simple_batches num_envs per inf bps) = inf + num_envs * Z.of_nat (List.length bps) /\
  snd (simple_batches num_envs per inf bps) = map (fun bp => bp mod per =? 0) bps.
Proof.
  induction bps as [|bp bps IH]; intros inf; cbn [simple_batches fst snd List.length map]; [split; [lia|auto]|].
  destruct (IH (inf + num_envs)) as [A1 A2]. rewrite A1, A2. split; [lia|auto].
Qed.
Lemma simple_every num_envs bps : simple_inf_step num_envs 1 0 bps = collected num_envs 1 bps.
Proof.
  unfold simple_inf_step, collected. destruct (simple_counts num_envs 1 bps 0) as [-> _].
  assert (E : filter (fun bp => bp mod 1 =? 0) bps = bps). { induction bps as [|b bps IH]; auto. cbn [filter]. rewrite Z.mod_1_r, Z.eqb_refl. f_equal. auto. }
  rewrite E. lia.
Qed.
Lemma simple_wrong : simple_inf_step 4 10 0 (map Z.of_nat (seq 0 20)) = 80 /\ collected 4 10 (map Z.of_nat (seq 0 20)) = 8.
Proof. vm_compute. auto. Qed.
Lemma simple_warmup : simple_inf_step 4 1 100 [] = 100 /\ 4 * 100 = 400.
Proof. vm_compute. auto. Qed.

(** ** The thread *)
Definition th_inv (t : threads) : Prop :=
  th_after_close t = false /\
  match th_mpc t with
  | MTraining => th_closed t = false
  | MJoin => th_stop t = true /\ th_closed t = false
  | MClose => th_stop t = true /\ th_tpc t = TEnded /\ th_closed t = false
  | MDone => th_stop t = true /\ th_tpc t = TEnded /\ th_closed t = true
  end.
Definition th_next (t : threads) (b : bool) : threads := match (if b then thread_step t else main_step t) with Some t' => t' | None => t end.
Lemma th_inv_next t b : th_inv t -> th_inv (th_next t b).
Proof.
  destruct t as [stop tp mp ad cl ac]. unfold th_inv, th_next. cbn [th_after_close th_mpc th_stop th_tpc th_closed]. intros [-> H].
  destruct b, tp, mp; cbn; intuition (subst; try discriminate; auto).
Qed.
Lemma th_inv_run : forall sch t, th_inv t -> th_inv (threads_run t sch).
Proof. induction sch as [|b sch IH]; intros t I; auto. cbn [threads_run]. apply IH. apply (th_inv_next b I). Qed.
Lemma th_start_inv stop : th_inv (threads_start stop).
Proof. split; reflexivity. Qed.
Lemma th_safe stop sch : let t := threads_run (threads_start stop) sch in
  th_after_close t = false /\ (th_mpc t = MDone -> th_tpc t = TEnded /\ th_closed t = true /\ forall more, th_added (threads_run t more) = th_added t).
Proof.
  intros t. pose proof (th_inv_run sch (th_start_inv stop)) as I. fold t in I. destruct I as [I1 I2]. split; auto. intros M. rewrite M in I2. destruct I2 as (_ & E & C). split; auto. split; auto.
  clear -M E. clearbody t. intros more. revert t M E. induction more as [|b more IH]; intros t M E; auto. cbn [threads_run].
  assert (Q : (match (if b then thread_step t else main_step t) with Some t' => t' | None => t end) = t). { destruct b; unfold thread_step, main_step; rewrite ?E, ?M; reflexivity. }
  rewrite Q. apply IH; auto.
Qed.
(** After the flag is set at most one collect_data call finishes. *)
Lemma th_bound : forall more t, th_stop t = true -> (th_added (threads_run t more) <= th_added t + (match th_tpc t with TCollect => 1 | _ => 0 end))%nat.
Proof.
  induction more as [|b more IH]; intros t St; [cbn; lia|]. cbn [threads_run]. destruct t as [stop tp mp ad cl ac]. cbn in St. subst stop.
  destruct b; cbn [thread_step main_step th_tpc th_mpc th_stop th_added th_closed th_after_close].
  - destruct tp; cbn [th_tpc th_added].
    + eapply Nat.le_trans; [apply IH; reflexivity|]. cbn. lia.
    + eapply Nat.le_trans; [apply IH; reflexivity|]. cbn. lia.
    + eapply Nat.le_trans; [apply IH; reflexivity|]. cbn. lia.
  - destruct mp; try (eapply Nat.le_trans; [apply IH; reflexivity|]; cbn; lia). destruct tp; eapply Nat.le_trans; [apply IH; reflexivity|cbn; lia|apply IH; reflexivity|cbn; lia|apply IH; reflexivity|cbn; lia].
Qed.
(** end_training returns when the threads go on: two steps of the thread and three of the trainer. *)
Lemma th_finishes t : th_inv t -> th_mpc t = MTraining -> th_mpc (threads_run t [false; true; true; false; false]) = MDone.
Proof. destruct t as [stop tp mp ad cl ac]. intros _ M. cbn in M. subst. destruct tp; reflexivity. Qed.
(** A second training: the flag is still set. *)
Lemma th_second sch : th_added (threads_run (threads_start true) sch) = 0%nat.
Proof. pose proof (@th_bound sch (threads_start true) eq_refl) as H. cbn [threads_start th_tpc th_added] in H. unfold threads_start. unfold threads_start in H. lia. Qed.

(** ** HitTheMiddle *)
Local Open Scope R_scope.
Lemma middle_one m a : let '(m', reward, done) := middle_step m a in
  -10 <= hm_pos m' <= 10 /\ reward = - (hm_pos m' * hm_pos m') /\ (done = true <-> (30 <= hm_step m)%nat) /\ hm_step m' = (if done then 0 else hm_step m + 1)%nat.
Proof.
  unfold middle_step. set (pos := hm_pos m + (hm_vel m + a)). destruct (Rgt_dec pos 10) as [G|G]; [|destruct (Rlt_dec pos (-10)) as [L|L]]; cbn [hm_pos hm_vel];
  destruct (Nat.ltb_spec 30 (hm_step m + 1)) as [Q|Q]; cbn [hm_pos hm_step]; repeat split; try lra; try lia; try ring; try (intros; try discriminate; lia); intros H; exfalso; lia.
Qed.
Lemma middle_all : forall acts m k, hm_step m = k -> (k <= 30)%nat -> forall i p r d, nth_error (middle_steps m acts) i = Some (p, r, d) ->
  -10 <= p <= 10 /\ r = - (p * p) /\ r <= 0 /\ (d = true <-> ((k + i + 1) mod 31 = 0)%nat).
Proof.
  induction acts as [|a acts IH]; intros m k Hk Lk i p r d H; [destruct i; discriminate|]. cbn [middle_steps] in H.
  pose proof (middle_one m a) as Q. destruct (middle_step m a) as [[m' rew] dn]. destruct Q as (Q1 & Q2 & Q3 & Q4). destruct i as [|i]; cbn [nth_error] in H.
  - injection H as <- <- <-. split; auto. split; auto. split; [rewrite Q2; pose proof (Rle_0_sqr (hm_pos m')) as Sq; unfold Rsqr in Sq; lra|]. rewrite Q3, Hk, Nat.add_0_r. split; intros G.
    + replace (k + 1)%nat with 31%nat by lia. reflexivity.
    + destruct (Nat.eq_dec k 30) as [-> |]; auto. rewrite Nat.mod_small in G by lia. lia.
  - assert (Lk' : (hm_step m' <= 30)%nat). { rewrite Q4. destruct dn; [lia|]. destruct (Nat.le_gt_cases 30 (hm_step m)) as [C|C]; [apply Q3 in C; discriminate|lia]. }
    destruct (IH m' _ eq_refl Lk' i p r d H) as (R1 & R2 & R3 & R4). split; auto. split; auto. split; auto. rewrite R4, Q4. destruct dn.
    + assert (k = 30%nat) by (destruct Q3 as [Q3 _]; specialize (Q3 eq_refl); lia). subst k. rewrite H0. replace (30 + Datatypes.S i + 1)%nat with ((0 + i + 1) + 1 * 31)%nat by lia. rewrite Nat.mod_add by lia. reflexivity.
    + rewrite Hk. replace (k + 1 + i + 1)%nat with (k + Datatypes.S i + 1)%nat by lia. reflexivity.
Qed.
Lemma middle_episode u w acts i p r d : nth_error (middle_steps (middle_reset u w) acts) i = Some (p, r, d) ->
  -10 <= p <= 10 /\ r = - (p * p) /\ r <= 0 /\ (d = true <-> ((i + 1) mod 31 = 0)%nat).
Proof. intros H. apply (@middle_all acts (middle_reset u w) 0%nat eq_refl ltac:(lia) i p r d H). Qed.
Lemma middle_moves m a : let v := hm_vel m + a in let target := hm_pos m + v in let m' := fst (fst (middle_step m a)) in
  hm_pos m' = Rmax (-10) (Rmin 10 target) /\ ((-10 <= target <= 10) -> hm_vel m' = v) /\ ((target < -10 \/ 10 < target) -> hm_vel m' = - v).
Proof.
  cbv zeta. unfold middle_step. set (t := hm_pos m + (hm_vel m + a)). destruct (Rgt_dec t 10) as [G|G]; [|destruct (Rlt_dec t (-10)) as [L|L]];
  destruct (Nat.ltb 30 (hm_step m + 1)); cbn [fst hm_pos hm_vel]; (split; [unfold Rmax, Rmin; repeat destruct Rle_dec; lra|split; intros; lra]).
Qed.
Lemma middle_start u w : 0 <= u < 1 -> 0 <= w < 1 -> -10 <= hm_pos (middle_reset u w) < 10 /\ - (1/4) <= hm_vel (middle_reset u w) < 1/4.
Proof. intros. cbn. lra. Qed.

(** ** Where the code differs *)
Local Open Scope Z_scope.
(** Two steps, then the time limit. *)
Definition ex_env : genv Z nat :=
  mkGenv (fun _ => (0%nat, [0])) (fun e _ => (Datatypes.S e, mkAns [Z.of_nat (Datatypes.S e)] 1 false (Nat.leb 2 (Datatypes.S e)))).
Definition ex_agent : nat -> dict Z (obs Z) -> res (dict Z (resp Z)) :=
  fun _ os => Ok (map (fun ao => (fst ao, mkResp [("actions", [5])] [])) (waiting os)).
Lemma ex_shows : shows ex_env 1.
Proof. split; reflexivity. Qed.
Lemma ex_answers : answers_all 1 1 ex_agent.
Proof.
  intros i os N W Sh. eexists. split; [reflexivity|]. split; [unfold dkeys; rewrite map_map; reflexivity|]. apply Forall_forall. intros x Ix.
  apply in_map_iff in Ix as (y & <- & _). exists [5]. auto.
Qed.
Definition ex_hist : list (pop Z) := match collect_run (fun _ => 1%R) ex_env ex_agent (fun _ => []) (gym_new [0%nat]) 3 with Ok (_, outs) => map fst outs | Err _ => [] end.
Lemma ex_stream : stream 2 ex_hist =
  [(mkObs [] INITIAL [("obs", [0])], Some (mkResp [("actions", [5])] []));
   (mkObs [("reward", [1])] RUNNING [("obs", [1])], Some (mkResp [("actions", [5])] []));
   (mkObs [("reward", [1])] TERMINAL [("obs", [2])], None)].
Proof. vm_compute. reflexivity. Qed.
Lemma ex_no_terminal ms e : play ex_env own_end ms e -> Forall (fun m => o_state (fst m) <> TERMINAL) ms.
Proof.
  induction 1 as [e0 e o R|before ob e action e' a P IH F St].
  - constructor; [discriminate|constructor].
  - apply Forall_app in IH as [I1 I2]. inversion I2; subst. apply Forall_app. split; auto. constructor; auto. constructor; [|constructor].
    unfold ex_env in St. cbn [g_step] in St. injection St as <- <-. cbn [fst o_state an_term an_trunc]. unfold own_end. match goal with |- context [if ?b then _ else _] => destruct b end; discriminate.
Qed.
Lemma truncated_refuted : ~ (stream 2 ex_hist = [] \/ whole_play ex_env own_end (stream 2 ex_hist) \/ open_play ex_env own_end (stream 2 ex_hist)).
Proof.
  rewrite ex_stream. intros [C|[C|C]]; [discriminate| |].
  - destruct C as (b & ob & e & _ & P & _). apply ex_no_terminal in P. inversion P as [|? ? _ P1]; subst. inversion P1 as [|? ? _ P2]; subst. inversion P2 as [|? ? P3 _]; subst. apply P3. reflexivity.
  - destruct C as (b & ob & a & e & E1 & _). apply (f_equal (fun l => snd (last l (ob, None)))) in E1. cbn [last snd] in E1. rewrite last_last in E1. discriminate.
Qed.
(** The first episode: two steps with reward 1, three are logged. *)
Lemma ex_logged : exists c outs o lg, collect_run (fun _ => 1%R) ex_env ex_agent (fun _ => []) (gym_new [0%nat]) 2 = Ok (c, outs) /\
  nth_error outs 1 = Some (o, Some lg) /\ ended (seen_after outs (co_obs c) 1) = [2] /\
  total (fun _ => 1%R) (so_far (map fst outs) (co_obs c) 2) = 2%R /\ lg = 3%R.
Proof.
  do 4 eexists. split; [cbv -[Rplus Rdiv INR IZR]; reflexivity|]. split; [cbn; reflexivity|]. split; [vm_compute; reflexivity|]. split.
  - unfold total, so_far. cbn. lra.
  - cbn. unfold rsum. cbn. lra.
Qed.

Section R.
Context {S E : Type}.
Variable num : S -> R.
Variable env : genv S E.
Variable agent : nat -> dict Z (obs S) -> res (dict Z (resp S)).
Variables dobs dact : nat.
Lemma run_plays draws envs count : shows env dobs -> answers_all dobs dact agent -> envs <> [] -> exists c outs,
  collect_run num env agent draws (gym_new envs) count = Ok (c, outs) /\ List.length outs = count /\
  (forall a, stream a (map fst outs) = [] \/ whole_play env any_end (stream a (map fst outs)) \/ open_play env any_end (stream a (map fst outs))) /\
  Forall (fun o => match o with
                   | PAdd os rs _ => NoDup (dkeys os) /\ List.length (waiting os) = List.length envs /\ dkeys rs = map fst (waiting os)
                   | PUse _ => False
                   end) (map fst outs).
Proof.
  intros HS HA Hne. destruct (whole_run num HS HA draws count Hne) as (c & outs & off & E1 & Ln & (I & _) & _). exists c, outs. split; auto. split; auto. split; [apply (stream_cases I)|].
  eapply Forall_impl; [|exact (i_calls I)]. intros [os rs dr|o] H; [|destruct H]. destruct H as (H1 & H2 & _ & _ & _ & H6 & _). auto.
Qed.
Lemma run_logs draws envs count : shows env dobs -> answers_all dobs dact agent -> envs <> [] -> exists c outs extra,
  collect_run num env agent draws (gym_new envs) count = Ok (c, outs) /\ List.length outs = count /\
  (forall k o lg, nth_error outs k = Some (o, lg) ->
     let now := seen_after outs (co_obs c) k in
     lg = mean_of (map (fun a => extra a + total num (so_far (firstn (Datatypes.S k) (map fst outs)) now a))%R (ended now))) /\
  (forall a, tried env num (extra a)) /\
  (forall a os rs dr lg, nth_error outs 0 = Some (PAdd os rs dr, lg) -> ~ In a (dkeys os) -> extra a = 0%R).
Proof.
  intros HS HA Hne. destruct (whole_run num HS HA draws count Hne) as (c & outs & off & E1 & Ln & (I & Lg) & T1 & T2). exists c, outs, off. split; auto.
Qed.
End R.
Lemma middle_case : (middle_steps (middle_reset (1/2) (1/2)) [1; 2] = [(1, -1, false); (4, -16, false)])%R.
Proof.
  assert (E0 : middle_reset (1/2) (1/2) = mkMid 0 0 0) by (unfold middle_reset; f_equal; field). rewrite E0.
  assert (E1 : middle_step (mkMid 0 0 0) 1 = (mkMid 1 1 1, -1, false)%R).
  { unfold middle_step. cbn [hm_pos hm_vel hm_step]. destruct Rgt_dec; [lra|]. destruct Rlt_dec; [lra|]. cbn. repeat f_equal; ring. }
  assert (E2 : middle_step (mkMid 1 1 1) 2 = (mkMid 4 3 2, -16, false)%R).
  { unfold middle_step. cbn [hm_pos hm_vel hm_step]. destruct Rgt_dec; [lra|]. destruct Rlt_dec; [lra|]. cbn. repeat f_equal; ring. }
  cbn [middle_steps]. rewrite E1. cbn [middle_steps]. rewrite E2. reflexivity.
Qed.
