(** * GymProps: the collectors (C113-C117) *)
From Coq Require Import Reals Lia.
From Verif Require Import Py MemModel MemSpec ProxyModel ProxySpec AgentModel AgentSpec NumModel GymModel GymSpec GymProofs GymMore GymRun GymE2E GymMisc.
Open Scope string_scope.
Open Scope list_scope.
Open Scope Z_scope.

(** ** C113: what a collector records are episodes of the environments.
    Missing: an episode that a time limit cuts off is recorded as one that ended by itself (see the refutation). *)
Theorem C113_episodes_partial : forall (S E : Type) (num : S -> R) (env : genv S E) (agent : nat -> dict Z (obs S) -> res (dict Z (resp S)))
    dobs dact draws envs count, shows env dobs -> answers_all dobs dact agent -> envs <> [] -> exists c outs,
  collect_run num env agent draws (gym_new envs) count = Ok (c, outs) /\ List.length outs = count /\
  (forall a, stream a (map fst outs) = [] \/ whole_play env any_end (stream a (map fst outs)) \/ open_play env any_end (stream a (map fst outs))) /\
  Forall (fun o => match o with
                   | PAdd os rs _ => NoDup (dkeys os) /\ List.length (waiting os) = List.length envs /\ dkeys rs = map fst (waiting os)
                   | PUse _ => False
                   end) (map fst outs).
Proof. exact @run_plays. Qed.
Print Assumptions C113_episodes_partial.
(** Whatever is sampled from a memory filled this way is a step that an environment made with an answer of the agent. *)
Theorem C113_transitions_partial : forall (S E : Type) (HSc : Scalar S) (num : S -> R) (env : genv S E)
    (agent : nat -> dict Z (obs S) -> res (dict Z (resp S))) dobs dact, shows env dobs -> answers_all dobs dact agent ->
  forall draws envs count c outs pc cols maxlen smp ej (h : list (pop S)) p n L dr out k,
  envs <> [] -> collect_run num env agent draws (gym_new envs) count = Ok (c, outs) ->
  adds_of h = map fst outs -> other_uses h -> Z.of_nat count <= 2 ^ 53 -> pc_min pc = Some k -> Z.of_nat L <= k -> (1 <= L)%nat ->
  config_ok cols "actions" -> fresh_sampler smp -> fresh_ejector ej -> layout cols "actions" (pc_terminal pc) (mkSchema ["obs"] ["actions"]) ->
  gym_sizes dobs dact cols ->
  prun pc (px_new (t_create cols "actions" maxlen smp ej)) h = (p, Ok tt) ->
  snd (t_sample (px_table p) n L dr) = Ok out ->
  forall r, (r < n * L)%nat ->
  exists e o action e' a, reached env e o /\ g_step env e action = (e', a) /\
    (exists i os rs id ob, agent i os = Ok rs /\ dget os id = Some ob /\ o_data ob = [("obs", o)] /\ dget rs id = Some (mkResp [("actions", action)] [])) /\
    gym_row cols out r o action a.
Proof. exact @gym_transitions. Qed.
Print Assumptions C113_transitions_partial.
(** The agents of the experiments answer as assumed. *)
Theorem C113_agents : forall (S : Type) dobs dact n_out (p : nat -> pargs (S := S) -> res (list (list (list S)))) (f : nat -> list (list S) -> list (list S)),
  (2 <= n_out)%nat -> (forall i, row_by_row n_out (f i) (p i)) ->
  (forall i o, List.length o = dobs -> exists action rest, f i [o] = action :: rest /\ List.length action = dact) ->
  answers_all dobs dact (fun i os => agent_call (feature_proxy (WithLogprobs (p i)) "obs") os).
Proof. exact @feature_answers. Qed.
Print Assumptions C113_agents.
(** The time limit: the environment truncates, the agent is told that the episode terminated. *)
Theorem C113_truncated_refuted : shows ex_env 1 /\ answers_all 1 1 ex_agent /\
  ~ (stream 2 ex_hist = [] \/ whole_play ex_env own_end (stream 2 ex_hist) \/ open_play ex_env own_end (stream 2 ex_hist)).
Proof. exact (conj ex_shows (conj ex_answers truncated_refuted)). Qed.
Print Assumptions C113_truncated_refuted.
Example C113_case : whole_play ex_env any_end (stream 2 ex_hist).
Proof.
  rewrite ex_stream. eexists [_; _], _, 2%nat. split; [reflexivity|]. split; [|reflexivity].
  apply (@play_step _ _ ex_env any_end [_] (mkObs [("reward", [1])] RUNNING [("obs", [1])]) 1%nat [5] 2%nat (mkAns [2] 1 false true)); [|reflexivity|reflexivity].
  apply (@play_step _ _ ex_env any_end [] (mkObs [] INITIAL [("obs", [0])]) 0%nat [5] 1%nat (mkAns [1] 1 false false)); [|reflexivity|reflexivity].
  apply (@play_reset _ _ ex_env any_end 7%nat). reflexivity.
Qed.
Definition ex_cols : list (column Z) :=
  [mkCol "obs" 1 (fun x => x) KBase; mkCol "actions" 1 (fun x => x) KBase; mkCol "rewards" 1 (fun x => x) KBase;
   mkCol "next_obs" 1 (fun x => x) (KVirt "obs" MNext); mkCol "masks" 1 (fun x => x) (KVirt "actions" MMask)].
Example C113_fits : config_ok ex_cols "actions" /\ layout ex_cols "actions" false (mkSchema ["obs"] ["actions"]) /\ gym_sizes 1 1 ex_cols.
Proof.
  split; [constructor|split].
  - repeat constructor; simpl; intuition discriminate.
  - intros c I. simpl in I. decompose [or] I; subst; simpl; try lia; tauto.
  - eexists. split; [right; left; reflexivity|]. split; reflexivity.
  - intros c tg m I K. simpl in I. decompose [or] I; subst; simpl in K; inversion K; subst; try tauto.
    + eexists. split; [left; reflexivity|]. split; reflexivity.
    + eexists. split; [right; left; reflexivity|]. split; reflexivity.
  - split; [intros n; simpl; tauto|]. split; [simpl; auto|]. intros c I. simpl in I. decompose [or] I; subst; simpl; auto. tauto.
  - intros c I. simpl in I. decompose [or] I; subst; simpl; auto. tauto.
Qed.
Example C113_sampled :
  snd (t_sample (px_table (fst (prun (mkPc (Some 2) false) (px_new (t_create ex_cols "actions" 100 (SWeighted (w_init false)) (EFifo fifo_init))) ex_hist))) 1 2 [(2, 0)]) =
  Ok [("obs", [[0]; [1]]); ("actions", [[5]; [5]]); ("rewards", [[1]; [1]]); ("next_obs", [[1]; [2]]); ("masks", [[1]; [0]])].
Proof. vm_compute. reflexivity. Qed.

(** ** C114: the logged episode reward.
    Missing: an agent of the first episode may get the reward of the step that begin_training throws away on top. *)
Theorem C114_logged_partial : forall (S E : Type) (num : S -> R) (env : genv S E) (agent : nat -> dict Z (obs S) -> res (dict Z (resp S)))
    dobs dact draws envs count, shows env dobs -> answers_all dobs dact agent -> envs <> [] -> exists c outs extra,
  collect_run num env agent draws (gym_new envs) count = Ok (c, outs) /\ List.length outs = count /\
  (forall k o lg, nth_error outs k = Some (o, lg) ->
     let now := seen_after outs (co_obs c) k in
     lg = mean_of (map (fun a => extra a + total num (so_far (firstn (Datatypes.S k) (map fst outs)) now a))%R (ended now))) /\
  (forall a, tried env num (extra a)) /\
  (forall a os rs dr lg, nth_error outs 0 = Some (PAdd os rs dr, lg) -> ~ In a (dkeys os) -> extra a = 0%R).
Proof. exact @run_logs. Qed.
Print Assumptions C114_logged_partial.
Theorem C114_first_refuted : exists c outs o lg, collect_run (fun _ => 1%R) ex_env ex_agent (fun _ => []) (gym_new [0%nat]) 2 = Ok (c, outs) /\
  nth_error outs 1 = Some (o, Some lg) /\ ended (seen_after outs (co_obs c) 1) = [2] /\
  total (fun _ => 1%R) (so_far (map fst outs) (co_obs c) 2) = 2%R /\ lg = 3%R.
Proof. exact ex_logged. Qed.
Print Assumptions C114_first_refuted.

(** ** C115: the inference step counter. *)
Theorem C115_every_batch_partial : forall num_envs bps, simple_inf_step num_envs 1 0 bps = collected num_envs 1 bps.
Proof. exact simple_every. Qed.
Print Assumptions C115_every_batch_partial.
(** What it counts. *)
Theorem C115_counts : forall num_envs per bps inf, fst (simple_batches num_envs per inf bps) = inf + num_envs * Z.of_nat (List.length bps) /\
  snd (simple_batches num_envs per inf bps) = map (fun bp => bp mod per =? 0) bps.
Proof. exact simple_counts. Qed.
Print Assumptions C115_counts.
Theorem C115_skipped_batches_refuted : simple_inf_step 4 10 0 (map Z.of_nat (seq 0 20)) = 80 /\ collected 4 10 (map Z.of_nat (seq 0 20)) = 8.
Proof. exact simple_wrong. Qed.
Print Assumptions C115_skipped_batches_refuted.
Theorem C115_warmup_refuted : simple_inf_step 4 1 100 [] = 100 /\ 4 * 100 = 400.
Proof. exact simple_warmup. Qed.
Print Assumptions C115_warmup_refuted.

(** ** C116: the collecting thread, for every schedule. *)
Theorem C116_no_use_after_end : forall stop schedule, let t := threads_run (threads_start stop) schedule in
  th_after_close t = false /\ (th_mpc t = MDone -> th_tpc t = TEnded /\ th_closed t = true /\ forall more, th_added (threads_run t more) = th_added t).
Proof. exact th_safe. Qed.
Print Assumptions C116_no_use_after_end.
Theorem C116_stops_soon : forall more t, th_stop t = true ->
  (th_added (threads_run t more) <= th_added t + (match th_tpc t with TCollect => 1 | _ => 0 end))%nat.
Proof. exact th_bound. Qed.
Print Assumptions C116_stops_soon.
Theorem C116_end_training_returns : forall stop schedule, let t := threads_run (threads_start stop) schedule in
  th_mpc t = MTraining -> th_mpc (threads_run t [false; true; true; false; false]) = MDone.
Proof. exact (fun stop schedule => @th_finishes _ (th_inv_run schedule (th_start_inv stop))). Qed.
Print Assumptions C116_end_training_returns.
Theorem C116_second_training_finding : forall schedule, th_added (threads_run (threads_start true) schedule) = 0%nat.
Proof. exact th_second. Qed.
Print Assumptions C116_second_training_finding.
Example C116_case : let t := threads_run (threads_start false) [true; true; true; false; false; true; true; false; false] in
  th_added t = 2%nat /\ th_mpc t = MDone /\ th_closed t = true.
Proof. vm_compute. auto. Qed.

(** ** C117: the example environment. *)
Theorem C117_episode : forall u w actions i p r d, nth_error (middle_steps (middle_reset u w) actions) i = Some (p, r, d) ->
  (-10 <= p <= 10 /\ r = - (p * p) /\ r <= 0 /\ (d = true <-> ((i + 1) mod 31 = 0)%nat))%R.
Proof. exact middle_episode. Qed.
Print Assumptions C117_episode.
Example C117_case : (middle_steps (middle_reset (1/2) (1/2)) [1; 2] = [(1, -1, false); (4, -16, false)])%R.
Proof. exact middle_case. Qed.
(** It moves by its velocity, stays on the track, and bounces. *)
Theorem C117_moves : forall m a, (let v := hm_vel m + a in let target := hm_pos m + v in let m' := fst (fst (middle_step m a)) in
  hm_pos m' = Rmax (-10) (Rmin 10 target) /\ ((-10 <= target <= 10) -> hm_vel m' = v) /\ ((target < -10 \/ 10 < target) -> hm_vel m' = - v))%R.
Proof. exact middle_moves. Qed.
Print Assumptions C117_moves.
Theorem C117_reset : forall u w, (0 <= u < 1 -> 0 <= w < 1 -> -10 <= hm_pos (middle_reset u w) < 10 /\ - (1/4) <= hm_vel (middle_reset u w) < 1/4)%R.
Proof. exact middle_start. Qed.
Print Assumptions C117_reset.
