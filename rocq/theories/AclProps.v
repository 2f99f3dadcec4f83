(** * AclProps: what a policy, its temperature and a dynamics model learn from in an experiment (C155) *)
From Coq Require Import Reals Lra.
From Verif Require Import Py MemModel MemSpec ProxyModel ProxySpec NumModel NumSpec LoaderModel TrainModel TrainSpec AgentModel AgentSpec
  CriticSpec AlgoSpec ActorModel ActorSpec GymModel GymSpec GymMisc GymTSpec GymTProps LiveModel LiveSpec LiveProps ExpSpec ExpProps PolMain ThrModel LtgSpec LtgProps CrlSpec AclSpec AclProofs.
Open Scope string_scope.
Open Scope list_scope.
Open Scope Z_scope.

(** ** C155: in every batch of a training, the losses of the policy and of its temperature are averages over observations
    the agents made in steps they had taken, and the transitions a dynamics model is given are steps they had taken *)
(** With a SimpleGymCollector. *)
Theorem C155_actor_and_model_learn : forall (S E : Type) (HSc : Scalar S) (O V : Type) (num : S -> R) (env : genv S E)
    (agent : V -> nat -> dict Z (obs S) -> res (dict Z (resp S))) (others : behaviour O V)
    eject_draws sample_draws (obj : dict string (cell S) -> O) pc ld sc stop envs cols maxlen smp ej dobs dact kmin size_key cbs fuel st0 v s out,
  envs <> [] -> shows env dobs -> (forall v, answers_all dobs dact (agent v)) ->
  pc_min pc = Some kmin -> Z.of_nat (ld_length ld) <= kmin -> (1 <= ld_length ld)%nat ->
  config_ok cols "actions" -> fresh_sampler smp -> fresh_ejector ej -> layout cols "actions" (pc_terminal pc) (mkSchema ["obs"] ["actions"]) ->
  gym_sizes dobs dact cols -> ld_group ld <> ld_size_key ld -> NoDup (map cb_id cbs) ->
  live_train (lab_act num env agent others eject_draws pc sc) (lab_next sample_draws obj ld stop) size_key cbs fuel st0
    (lab_new envs (t_create cols "actions" maxlen smp ej) v) = (s, out) ->
  Z.of_nat (List.length (lb_notes (wd_world s))) <= 2 ^ 53 ->
  forall k b, In (TBatch k b) (wd_trace s) ->
  exists before rows after, lb_notes (wd_world s) = before ++ NDrew rows :: after /\ batch_of obj ld rows b /\
    actor_learns env agent cols (ld_count ld) (ld_length ld) before rows /\
    (ld_length ld = 1%nat -> model_learns num env agent cols (ld_count ld) before rows).
Proof. exact @simple_actors. Qed.
Print Assumptions C155_actor_and_model_learn.

(** With a ThreadedGymCollector, whatever the schedule. *)
Theorem C155_actor_and_model_learn_threaded : forall (S E : Type) (HSc : Scalar S) (O V : Type) (num : S -> R) (env : genv S E)
    (agent : V -> nat -> dict Z (obs S) -> res (dict Z (resp S))) (others : behaviour O V)
    eject_draws sample_draws (obj : dict string (cell S) -> O) pc ld tc sched stop envs cols maxlen smp dobs dact kmin size_key cbs fuel st0 v s out,
  envs <> [] -> shows env dobs -> (forall v, answers_all dobs dact (agent v)) ->
  pc_min pc = Some kmin -> Z.of_nat (ld_length ld) <= kmin -> (1 <= ld_length ld)%nat ->
  config_ok cols "actions" -> fresh_sampler smp -> layout cols "actions" (pc_terminal pc) (mkSchema ["obs"] ["actions"]) ->
  gym_sizes dobs dact cols -> at_most env maxlen -> maxlen <= 2 ^ 53 -> ld_group ld <> ld_size_key ld -> NoDup (map cb_id cbs) ->
  live_train (thr_act num env agent others eject_draws pc tc sched) (thr_next num env agent eject_draws sample_draws obj pc ld sched stop) size_key cbs fuel st0
    (thr_new envs (t_create cols "actions" maxlen smp (EFifo fifo_init)) v) = (s, out) ->
  Z.of_nat (List.length (lb_notes (tl_lab (wd_world s)))) <= 2 ^ 53 ->
  forall k b, In (TBatch k b) (wd_trace s) ->
  exists before rows after, lb_notes (tl_lab (wd_world s)) = before ++ NDrew rows :: after /\ batch_of obj ld rows b /\
    actor_learns env agent cols (ld_count ld) (ld_length ld) before rows /\
    (ld_length ld = 1%nat -> model_learns num env agent cols (ld_count ld) before rows).
Proof. exact @threaded_actors. Qed.
Print Assumptions C155_actor_and_model_learn_threaded.

(** An experiment as in C147 with batches of two single steps, one of them the last of its episode: the columns fit, and
    the transitions and losses of its last batch. *)
Definition ac_cols : list (MemModel.column Z) :=
  [mkCol "obs" 1 (fun x => x) KBase; mkCol "actions" 1 (fun x => x) KBase; mkCol "rewards" 1 (fun x => x) KBase;
   mkCol "next_obs" 1 (fun x => x) (KVirt "obs" MNext)].
Definition ac_run fuel := live_train (lab_act (fun _ => 1%R) ex_env lv_agent lv_others (fun _ => []) (mkPc (Some 1) false) (mkSc 1 3 1))
  (lab_next (fun i => let e := if (i <? 5)%nat then 2 else 4 in [(e, 2 ^ 52); (2, 0)]) (fun d => d) (mkLoader 2 1 "batch_size" "default") (fun _ => Ok false)) "batch_size" lv_cbs fuel []
  (lab_new [0%nat] (t_create ac_cols "actions" 100 (SWeighted (w_init false)) (EFifo fifo_init)) 7).
Definition ac_rows : dict string (array Z) := [("obs", [[1]; [0]]); ("actions", [[9]; [7]]); ("rewards", [[1]; [1]]); ("next_obs", [[2]; [1]])].
Example C155_fits : config_ok ac_cols "actions" /\ layout ac_cols "actions" false (mkSchema ["obs"] ["actions"]) /\ gym_sizes 1 1 ac_cols.
Proof.
  split; [constructor|split].
  - repeat constructor; simpl; intuition discriminate.
  - intros c I. simpl in I. decompose [or] I; subst; simpl; try lia; tauto.
  - eexists. split; [right; left; reflexivity|]. split; reflexivity.
  - intros c tg m I K. simpl in I. decompose [or] I; subst; simpl in K; inversion K; subst; try tauto.
    eexists. split; [left; reflexivity|]. split; reflexivity.
  - split; [intros n; simpl; tauto|]. split; [simpl; auto|]. intros c I. simpl in I. decompose [or] I; subst; simpl; auto. tauto.
  - intros c I. simpl in I. decompose [or] I; subst; simpl; auto. tauto.
Qed.
Example C155_run : match ac_run 8 with (s, out) => out = Returned /\ List.length (batches (wd_trace s)) = 6%nat /\
  exists before x, lb_notes (wd_world s) = before ++ [NDrew ac_rows; x] end.
Proof.
  vm_compute. split; auto. split; auto.
  match goal with |- exists b x, ?l = _ => let b := eval vm_compute in (removelast (removelast l)) in exists b end. eexists. reflexivity.
Qed.
Example C155_transitions : drawn IZR ac_rows "obs" "next_obs" "actions" "rewards" = mkTr [[1]; [0]]%R [[2]; [1]]%R [[9]; [7]]%R [[1]; [1]]%R.
Proof. reflexivity. Qed.
(** A policy that repeats what it sees with log-probability -1, a critic that says what it is asked, temperature 1. *)
Example C155_losses : (actor_loss (fun _ (o : list (list Z)) => (hd [] o, -1)) (fun a _ => IZR (hd 0%Z a)) None 0 (observations ac_rows ["obs"] 2) = - (3 / 2) /\
  temperature_loss (fun _ (o : list (list Z)) => (hd [] o, -1)) 3 5 (observations ac_rows ["obs"] 2) = -10)%R.
Proof.
  unfold actor_loss, temperature_loss, PolModel.policy_loss, LossModel.alpha_loss, NumModel.np_mean. cbn. rewrite exp_0. split; lra.
Qed.
