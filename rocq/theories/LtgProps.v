(** * LtgProps: in an experiment, Q-targets are returns of what happened (C153) *)
From Coq Require Import Reals Lra.
From Verif Require Import Py MemModel MemSpec ProxyModel ProxySpec NumModel NumSpec LoaderModel TrainModel TrainSpec AgentModel AgentSpec
  GymModel GymSpec GymMisc GymTSpec GymTProps LiveModel LiveSpec LiveProps ExpSpec ExpProps ThrModel LtgSpec LtgProofs.
Open Scope string_scope.
Open Scope list_scope.
Open Scope Z_scope.

(** ** C153: the Q-targets of every batch of a training are the returns of stretches of episodes that the agents had
    played, with the weights they had then; the values of the next observations are those of any network, such as the
    target network at that moment *)
(** With a SimpleGymCollector. *)
Theorem C153_targets_happened : forall (S E : Type) (HSc : Scalar S) (O V : Type) (num : S -> R) (env : genv S E)
    (agent : V -> nat -> dict Z (obs S) -> res (dict Z (resp S))) (others : behaviour O V)
    eject_draws sample_draws (obj : dict string (cell S) -> O) pc ld sc stop envs cols maxlen smp ej dobs dact kmin size_key cbs fuel st0 v s out,
  num s_zero = 0%R -> num s_one = 1%R ->
  envs <> [] -> shows env dobs -> (forall v, answers_all dobs dact (agent v)) ->
  pc_min pc = Some kmin -> Z.of_nat (ld_length ld) <= kmin -> (1 <= ld_length ld)%nat ->
  config_ok cols "actions" -> fresh_sampler smp -> fresh_ejector ej -> layout cols "actions" (pc_terminal pc) (mkSchema ["obs"] ["actions"]) ->
  gym_sizes dobs dact cols -> ld_group ld <> ld_size_key ld -> NoDup (map cb_id cbs) ->
  live_train (lab_act num env agent others eject_draws pc sc) (lab_next sample_draws obj ld stop) size_key cbs fuel st0
    (lab_new envs (t_create cols "actions" maxlen smp ej) v) = (s, out) ->
  Z.of_nat (List.length (lb_notes (wd_world s))) <= 2 ^ 53 ->
  forall k b, In (TBatch k b) (wd_trace s) ->
  exists before rows after, lb_notes (wd_world s) = before ++ NDrew rows :: after /\ batch_of obj ld rows b /\
    targets_happened num env agent cols (ld_count ld) (ld_length ld) before rows.
Proof. exact @simple_targets. Qed.
Print Assumptions C153_targets_happened.

(** With a ThreadedGymCollector, whatever the schedule. *)
Theorem C153_targets_happened_threaded : forall (S E : Type) (HSc : Scalar S) (O V : Type) (num : S -> R) (env : genv S E)
    (agent : V -> nat -> dict Z (obs S) -> res (dict Z (resp S))) (others : behaviour O V)
    eject_draws sample_draws (obj : dict string (cell S) -> O) pc ld tc sched stop envs cols maxlen smp dobs dact kmin size_key cbs fuel st0 v s out,
  num s_zero = 0%R -> num s_one = 1%R ->
  envs <> [] -> shows env dobs -> (forall v, answers_all dobs dact (agent v)) ->
  pc_min pc = Some kmin -> Z.of_nat (ld_length ld) <= kmin -> (1 <= ld_length ld)%nat ->
  config_ok cols "actions" -> fresh_sampler smp -> layout cols "actions" (pc_terminal pc) (mkSchema ["obs"] ["actions"]) ->
  gym_sizes dobs dact cols -> at_most env maxlen -> maxlen <= 2 ^ 53 -> ld_group ld <> ld_size_key ld -> NoDup (map cb_id cbs) ->
  live_train (thr_act num env agent others eject_draws pc tc sched) (thr_next num env agent eject_draws sample_draws obj pc ld sched stop) size_key cbs fuel st0
    (thr_new envs (t_create cols "actions" maxlen smp (EFifo fifo_init)) v) = (s, out) ->
  Z.of_nat (List.length (lb_notes (tl_lab (wd_world s)))) <= 2 ^ 53 ->
  forall k b, In (TBatch k b) (wd_trace s) ->
  exists before rows after, lb_notes (tl_lab (wd_world s)) = before ++ NDrew rows :: after /\ batch_of obj ld rows b /\
    targets_happened num env agent cols (ld_count ld) (ld_length ld) before rows.
Proof. exact @threaded_targets. Qed.
Print Assumptions C153_targets_happened_threaded.

(** The columns of the example of C147 (see C147_fits, C147_run) and the targets of its sixth batch, with a discount of 2,
    with and without masking of the last value. *)
Example C153_columns : target_columns gt_cols 2 (mkCol "rewards" 1 (fun x => x) KBase) (mkCol "masks" 1 (fun x => x) (KVirt "actions" MMask))
    [(mkCol "next_obs" 1 (fun x => x) (KVirt "obs" MNextLast), mkCol "obs" 1 (fun x => x) KBase)].
Proof.
  split; [right; right; left; reflexivity|]. split; [reflexivity|]. split; [reflexivity|]. split; [do 4 right; left; reflexivity|].
  split; [eexists; reflexivity|]. constructor; [|constructor]. split; [do 3 right; left; reflexivity|]. split; [left; reflexivity|]. left. reflexivity.
Qed.
Definition lt_rows : dict string (array Z) := [("obs", [[0]; [1]]); ("actions", [[8]; [9]]); ("rewards", [[1]; [1]]); ("next_obs", [[2]]); ("masks", [[1]; [0]])].
Example C153_run : match lv_run 8 with (s, _) => exists before x, lb_notes (wd_world s) = before ++ [NDrew lt_rows; x] end.
Proof. vm_compute. match goal with |- exists b x, ?l = _ => let b := eval vm_compute in (removelast (removelast l)) in exists b end. eexists. reflexivity. Qed.
Example C153_targets : (let q m := q_target 2 1 2 m (NumSpec.row_by_row (fun _ o => IZR (hd 0%Z (hd [] o)))) (observations lt_rows ["next_obs"] 1)
    (numbers IZR lt_rows "rewards") (numbers IZR lt_rows "masks") in
  (exists a b, q true = Ok [a; b] /\ a = 3 /\ b = 1) /\ (exists a b, q false = Ok [a; b] /\ a = 11 /\ b = 5))%R.
Proof. split; (do 2 eexists; split; [reflexivity|split; cbn; unfold number; cbn; lra]). Qed.
