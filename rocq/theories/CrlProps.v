(** * CrlProps: what a critic learns from in an experiment (C154) *)
From Coq Require Import Reals Lra.
From Verif Require Import Py MemModel MemSpec ProxyModel ProxySpec NumModel NumSpec LoaderModel TrainModel TrainSpec AgentModel AgentSpec
  CriticModel CriticSpec GymModel GymSpec GymMisc GymTSpec GymTProps LiveModel LiveSpec LiveProps ExpSpec ExpProps PolMain ThrModel LtgSpec LtgProps CrlSpec CrlProofs.
Open Scope string_scope.
Open Scope list_scope.
Open Scope Z_scope.

(** ** C154: the loss of the critic on every batch of a training is the mean squared difference between what the network
    says of what an agent saw and did, and the return that followed, over stretches of episodes the agents had played *)
(** With a SimpleGymCollector. *)
Theorem C154_critic_learns : forall (S E : Type) (HSc : Scalar S) (O V : Type) (num : S -> R) (env : genv S E)
    (agent : V -> nat -> dict Z (obs S) -> res (dict Z (resp S))) (others : behaviour O V)
    eject_draws sample_draws (obj : dict string (cell S) -> O) pc ld sc stop envs cols maxlen smp ej dobs dact kmin size_key cbs fuel st0 v s out,
  num s_zero = 0%R -> num s_one = 1%R ->
  envs <> [] -> shows env dobs -> (forall v, answers_all dobs dact (agent v)) ->
  pc_min pc = Some kmin -> Z.of_nat (ld_length ld) <= kmin -> (1 <= ld_length ld)%nat ->
  config_ok cols "actions" -> fresh_sampler smp -> fresh_ejector ej -> layout cols "actions" (pc_terminal pc) (mkSchema ["obs"] ["actions"]) ->
  gym_sizes dobs dact cols -> ld_group ld <> ld_size_key ld -> NoDup (map cb_id cbs) ->
  live_train (lab_act num env agent others eject_draws pc sc) (lab_next sample_draws obj ld stop) size_key cbs fuel st0
    (lab_new envs (t_create cols "actions" maxlen smp ej) v) = (s, out) ->
  Z.of_nat (List.length (lb_notes (wd_world s))) <= 2 ^ 53 ->
  forall k b, In (TBatch k b) (wd_trace s) ->
  exists before rows after, lb_notes (wd_world s) = before ++ NDrew rows :: after /\ batch_of obj ld rows b /\
    sac_learns num env agent cols (ld_count ld) (ld_length ld) before rows /\ dqn_learns num env agent cols (ld_count ld) (ld_length ld) before rows.
Proof. exact @simple_learns. Qed.
Print Assumptions C154_critic_learns.

(** With a ThreadedGymCollector, whatever the schedule. *)
Theorem C154_critic_learns_threaded : forall (S E : Type) (HSc : Scalar S) (O V : Type) (num : S -> R) (env : genv S E)
    (agent : V -> nat -> dict Z (obs S) -> res (dict Z (resp S))) (others : behaviour O V)
    eject_draws sample_draws (obj : dict string (cell S) -> O) pc ld tc sched stop envs cols maxlen smp dobs dact kmin size_key cbs fuel st0 v s out,
  num s_zero = 0%R -> num s_one = 1%R ->
  envs <> [] -> shows env dobs -> (forall v, answers_all dobs dact (agent v)) ->
  pc_min pc = Some kmin -> Z.of_nat (ld_length ld) <= kmin -> (1 <= ld_length ld)%nat ->
  config_ok cols "actions" -> fresh_sampler smp -> layout cols "actions" (pc_terminal pc) (mkSchema ["obs"] ["actions"]) ->
  gym_sizes dobs dact cols -> at_most env maxlen -> maxlen <= 2 ^ 53 -> ld_group ld <> ld_size_key ld -> NoDup (map cb_id cbs) ->
  live_train (thr_act num env agent others eject_draws pc tc sched) (thr_next num env agent eject_draws sample_draws obj pc ld sched stop) size_key cbs fuel st0
    (thr_new envs (t_create cols "actions" maxlen smp (EFifo fifo_init)) v) = (s, out) ->
  Z.of_nat (List.length (lb_notes (tl_lab (wd_world s)))) <= 2 ^ 53 ->
  forall k b, In (TBatch k b) (wd_trace s) ->
  exists before rows after, lb_notes (tl_lab (wd_world s)) = before ++ NDrew rows :: after /\ batch_of obj ld rows b /\
    sac_learns num env agent cols (ld_count ld) (ld_length ld) before rows /\ dqn_learns num env agent cols (ld_count ld) (ld_length ld) before rows.
Proof. exact @threaded_learns. Qed.
Print Assumptions C154_critic_learns_threaded.

(** The columns and the sixth batch of the example of C153 (C153_columns, C153_run): with a discount of 2, the losses of a
    SAC critic that says the sum of action and observation (its target network the observation alone, its policy certain)
    and of a DQN critic that says 1 of the eighth action and 0 of others. *)
Example C154_columns : critic_columns gt_cols (mkCol "obs" 1 (fun x => x) KBase) (mkCol "actions" 1 (fun x => x) KBase).
Proof. split; [left; reflexivity|]. split; [reflexivity|]. split; [reflexivity|]. split; [right; left; reflexivity|]. split; reflexivity. Qed.
Definition cl_obs (o : list (list Z)) : R := IZR (hd 0%Z (hd [] o)).
Example C154_sac : exists r, sac_critic 2 1 2 false (fun _ _ => ([], 0)%R) (fun a o => hd 0 a + cl_obs o)%R (fun _ => cl_obs) (fun _ => cl_obs) 0
    (observations lt_rows ["obs"] 2) (observations lt_rows ["next_obs"] 1) (map (map IZR) (dget_default lt_rows "actions" []))
    (numbers IZR lt_rows "rewards") (numbers IZR lt_rows "masks") = Ok r /\ r = 17%R.
Proof.
  eexists. split; [reflexivity|]. cbn. unfold cl_obs, number, Rmin, np_mean. cbn. destruct (Rle_dec 2 2); lra.
Qed.
Definition cl_net (o : list (list Z)) : list R := [0; 0; 0; 0; 0; 0; 0; 0; 1; 0]%R.
Example C154_dqn : exists r, dqn_critic 2 1 2 cl_net cl_net
    (observations lt_rows ["obs"] 2) (observations lt_rows ["next_obs"] 1) (map (map IZR) (dget_default lt_rows "actions" []))
    (numbers IZR lt_rows "rewards") (numbers IZR lt_rows "masks") = Ok r /\ r = (5 / 2)%R.
Proof.
  assert (I8 : PolModel.to_int 8 = 8%Z) by (replace 8%R with (INR 8) by (cbn; lra); apply PolMain.to_int_nat).
  assert (I9 : PolModel.to_int 9 = 9%Z) by (replace 9%R with (INR 9) by (cbn; lra); apply PolMain.to_int_nat).
  eexists. split.
  - cbn. rewrite I8, I9. cbn. reflexivity.
  - cbn. unfold number, np_mean. cbn. change (Pos.to_nat 8) with 8%nat. change (Pos.to_nat 9) with 9%nat. cbv iota. rewrite !Rmult_0_r. lra.
Qed.
