(** * E2EProps: from agents to Q-targets (C132) *)
From Coq Require Import Reals Lra.
From Verif Require Import Py MemModel MemSpec ProxyModel ProxySpec ProxyExamples MemExamples NumModel NumSpec E2ESpec E2EProofs E2EExamples.
Open Scope string_scope.
Open Scope list_scope.
Open Scope R_scope.

(** Whatever agents did, and whichever windows the memory draws: the targets computed
    from a batch are, rollout by rollout, those of consecutive steps one agent took. *)
Theorem C132_targets : forall (S : Type) (HS : Scalar S) (num : S -> R), num s_zero = 0 -> num s_one = 1 ->
  forall (pc : pconf) (cols : list (column S)) (lenkey : string) (maxlen : Z) (smp : sampler) (ej : ejector)
         (sch : schema) (h : list (pop S)) (p : proxy S) (count L : nat) (draws : list draw) (out : dict string (array S))
         (gamma scale : R) (masking : bool) (reward : column S) (nexts : list (column S * column S)) (mask : column S)
         (value : nat -> list (row (S:=S)) -> R),
  config_ok cols lenkey -> fresh_sampler smp -> fresh_ejector ej ->
  schema_ok (pc_terminal pc) sch -> layout cols lenkey (pc_terminal pc) sch ->
  batches_ok h -> agents_ok pc cols lenkey sch L h -> (1 <= L)%nat ->
  prun pc (px_new (t_create cols lenkey maxlen smp ej)) h = (p, Ok tt) ->
  snd (t_sample (px_table p) count L draws) = Ok out ->
  In reward cols -> is_base reward -> c_name reward = "rewards" ->
  (* [nexts]: the next-observation columns, with the observation columns they look into *)
  Forall (fun q => In (fst q) cols /\ (c_kind (fst q) = KVirt (c_name (snd q)) MNextLast
                                       \/ c_kind (fst q) = KVirt (c_name (snd q)) MNext /\ L = 1%nat)
                   /\ In (snd q) cols) nexts ->
  In mask cols -> (exists target, c_kind mask = KVirt target MMask) ->
  exists qt,
    q_target gamma scale L masking (row_by_row value) (observations out (map (fun q => c_name (fst q)) nexts) count)
         (numbers num out (c_name reward)) (numbers num out (c_name mask)) = Ok qt
    /\ List.length qt = (count * L)%nat
    /\ forall j, (j < count)%nat -> exists a ms i, In ms (episodes [] (stream a h)) /\ (i + L < List.length ms)%nat
       /\ forall t, (t < L)%nat -> nth_error qt (j * L + t) =
            Some (experienced_target num gamma scale L masking reward (map snd nexts) value j ms i t).
Proof. exact @agent_targets. Qed.
Print Assumptions C132_targets.

(** The memory of the example; two windows of agent 1, the second of which ends its episode. *)
Example C132_ex :
  config_ok ee_cols "actions" /\ schema_ok true px_sch /\ layout ee_cols "actions" true px_sch
  /\ batches_ok px_h /\ agents_ok px_pc ee_cols "actions" px_sch 2 px_h
  /\ snd (prun px_pc (px_new ee_table) px_h) = Ok tt
  /\ snd (t_sample (px_table (fst (prun px_pc (px_new ee_table) px_h))) 2 2 [(1, 0); (1, 2 ^ 53 - 1)]%Z)
     = Ok [("obs", [[10]; [11]; [11]; [12]]); ("actions", [[60]; [61]; [61]; [62]]);
           ("rewards", [[1011]; [1012]; [1012]; [1013]]); ("terminal", [[1]; [1]]);
           ("next_obs", [[12]; [13]]); ("masks", [[1]; [1]; [1]; [0]])]%Z
  /\ In ee_episode (episodes [] (stream 1%Z px_h)).
Proof.
  split; [apply ee_config|]. split; [apply px_schema|]. split; [apply ee_layout|].
  split; [apply px_batches|]. split; [apply ee_agents|]. split; [vm_compute; reflexivity|].
  split; [vm_compute; reflexivity|]. left. vm_compute. reflexivity.
Qed.
(** With a discount of 2: 1011 + 2 * 1012 + 4 * 12, and 1012 + 2 * 1013 for the end. *)
Example C132_ex_value :
  experienced_target IZR 2 1 2 true (mkCol "rewards" 1 idz KBase) [mkCol "obs" 1 idz KBase] ee_value 0 ee_episode 0 0 = 3083
  /\ experienced_target IZR 2 1 2 true (mkCol "rewards" 1 idz KBase) [mkCol "obs" 1 idz KBase] ee_value 1 ee_episode 1 0 = 3038
  /\ experienced_target IZR 2 1 2 false (mkCol "rewards" 1 idz KBase) [mkCol "obs" 1 idz KBase] ee_value 1 ee_episode 1 0 = 3090.
Proof.
  unfold experienced_target, n_step_return, ee_value, ee_episode, reward_for, seen_at, ended_at, of_moment, cast_by,
    received, saw, number, row_or_empty, ob. cbn. unfold idz. lra.
Qed.
