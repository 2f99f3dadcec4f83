(** * ImagProps: the theorems for C140, and cases that meet their hypotheses

    Every dynamics model, reward and termination function, agent, schedule of rollout
    lengths, number of environments, batches, and memory. *)
From Verif Require Import Py MemModel MemSpec ProxyModel ProxySpec EnvModel EnvSpec CollModel CollSpec ImagSpec ImagProofs ProxyExamples CollProps.
Open Scope string_scope.
Open Scope list_scope.
Open Scope Z_scope.

(** ** C140 *)
(** Every episode in the collector's memory starts with an observation of one of the batches
    it was given, and every step goes where the model predicts for what the agent observed
    and did; if the termination function ends episodes, all but the first. *)
Theorem C140_episodes_partial : forall (S : Type) (HS : Scalar S) (c : kconf S) (n : nat) (t0 : table S) (len0 : Z) (batches : list (list (list S))) (k : coll S),
  collect_run c (coll_init n t0 len0) batches = (k, Ok tt) ->
  forall a ms, In ms (episodes [] (stream a (k_uses k))) ->
    imagined_but_first (kc_dyn c) (kc_key c) (concat batches) ms
    /\ (never_ends (kc_dyn c) -> imagined (kc_dyn c) (kc_key c) (concat batches) ms).
Proof. exact @run_imagined. Qed.
Print Assumptions C140_episodes_partial.

(** Every row of every batch training draws from that memory is a step of such an episode. *)
Theorem C140_batch_partial : forall (S : Type) (HS : Scalar S) (c : kconf S) (n : nat) (cols : list (column S)) (lenkey : string) (maxlen : Z) (smp : sampler) (ej : ejector)
    (len0 : Z) (batches : list (list (list S))) (k : coll S) (ns : list string) (count : nat) (draws : list draw) (out : dict string (array S)),
  config_ok cols lenkey -> fresh_sampler smp -> fresh_ejector ej ->
  schema_ok (pc_terminal (kc_proxy c)) (mkSchema [kc_key c] ns) -> layout cols lenkey (pc_terminal (kc_proxy c)) (mkSchema [kc_key c] ns) ->
  agent_dicts c -> agent_names c ns ->
  collect_run c (coll_init n (t_create cols lenkey maxlen smp ej) len0) batches = (k, Ok tt) ->
  (forall a, Forall (sized cols) (stream a (k_uses k)) /\ zlen (stream a (k_uses k)) <= 2 ^ 53) ->
  snd (t_sample (px_table (k_proxy k)) count 1 draws) = Ok out ->
  forall r, (r < count)%nat -> exists ms i m m',
    imagined_but_first (kc_dyn c) (kc_key c) (concat batches) ms
    /\ (never_ends (kc_dyn c) -> imagined (kc_dyn c) (kc_key c) (concat batches) ms)
    /\ nth_error ms i = Some m /\ nth_error ms (i + 1) = Some m'
    /\ is_transition cols (mkSchema [kc_key c] ns) out r m m'.
Proof. exact @batch_imagined. Qed.
Print Assumptions C140_batch_partial.

(** With a termination function, training draws transitions the model never predicts: the
    model adds the action to the observation, but the batch says that 2 and the action 3 led
    to 7. *)
Theorem C140_batch_refuted : exists (c : kconf Z) (n : nat) (batches : list (list (list Z))) (k : coll Z) (draws : list draw) (out : dict string (array Z)),
  agent_dicts c /\ agent_names c ["actions"] /\ agent_answers c /\ Forall (fun b => List.length b = n) batches
  /\ collect_run c (coll_init n px_table0 1) batches = (k, Ok tt)
  /\ (forall a, Forall (sized px_cols) (stream a (k_uses k)) /\ zlen (stream a (k_uses k)) <= 2 ^ 53)
  /\ snd (t_sample (px_table (k_proxy k)) 1 1 draws) = Ok out
  /\ dget out "obs" = Some [[2]] /\ dget out "actions" = Some [[3]] /\ dget out "next_obs" = Some [[7]]
  /\ forall call i action, dget (r_list action) "actions" = Some [3] -> fst (dy_model (kc_dyn c) call i [2] action) = [5].
Proof.
  exists col_conf, 2%nat, [[[0]; [1]]; [[2]; [0]]; [[5]; [6]]], (fst col_run), [(10, 0)]. eexists.
  split; [exact col_dicts|]. split; [exact col_names|]. split; [exact col_answers|]. split; [repeat constructor|].
  split; [vm_compute; reflexivity|]. split.
  { intros a. split; [apply singles_sized; vm_compute; reflexivity|]. eapply Z.le_trans; [apply stream_short|]. vm_compute. discriminate. }
  split; [vm_compute; reflexivity|]. split; [vm_compute; reflexivity|]. split; [vm_compute; reflexivity|]. split; [vm_compute; reflexivity|].
  intros call i action E. cbn [kc_dyn col_conf sums dy_model]. rewrite E. reflexivity.
Qed.
Print Assumptions C140_batch_refuted.

(** Without one: two environments, three batches, rollouts of one step, then of two. *)
Definition endless : kconf Z :=
  mkKc (mkDyn (dy_model sums) None (fun _ _ _ => false)) (kc_agent col_conf) (mkPc None true) "obs" (fun _ => []) (fun b => Z.min b 2) 10.
Example C140_case :
  config_ok px_cols "actions" /\ schema_ok true (mkSchema ["obs"] ["actions"]) /\ layout px_cols "actions" true (mkSchema ["obs"] ["actions"])
  /\ never_ends (kc_dyn endless) /\ agent_dicts endless /\ agent_names endless ["actions"]
  /\ exists k, collect_run endless (coll_init 2 px_table0 1) [[[0]; [1]]; [[2]; [0]]; [[5]; [6]]] = (k, Ok tt)
     /\ (forall a, Forall (sized px_cols) (stream a (k_uses k)) /\ zlen (stream a (k_uses k)) <= 2 ^ 53)
     /\ map (fun l => map (fun m => (o_state (fst m), o_data (fst m), o_rewards (fst m))) l) (episodes [] (stream 9 (k_uses k))) =
          [[(INITIAL, [("obs", [0])], []); (RUNNING, [("obs", [2])], [("reward", [2])]); (INTERRUPTED, [("obs", [5])], [("reward", [3])])]]
     /\ exists out, snd (t_sample (px_table (k_proxy k)) 1 1 [(9, 2 ^ 53 - 1)]) = Ok out
        /\ dget out "obs" = Some [[2]] /\ dget out "actions" = Some [[3]] /\ dget out "next_obs" = Some [[5]].
Proof.
  split; [exact px_config|]. split; [exact px_schema|]. split; [exact px_layout|]. split; [intros call i o; reflexivity|].
  split; [exact col_dicts|]. split; [exact col_names|]. eexists. split; [vm_compute; reflexivity|]. split.
  { intros a. split; [apply singles_sized; vm_compute; reflexivity|]. eapply Z.le_trans; [apply stream_short|]. vm_compute. discriminate. }
  split; [vm_compute; reflexivity|]. eexists. split; [vm_compute; reflexivity|]. split; [vm_compute; reflexivity|]. split; vm_compute; reflexivity.
Qed.
