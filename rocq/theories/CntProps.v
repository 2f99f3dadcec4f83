(** * CntProps: a training that returned has collected all it was to collect (C152) *)
From Coq Require Import Reals Lia.
From Verif Require Import Py MemModel ProxyModel LoaderModel TrainModel TrainSpec AgentModel AgentSpec GymModel GymSpec GymMisc GymTProps LiveModel LiveProps ExpProps ThrModel ThrProps CntSpec CntProofs.
Open Scope string_scope.
Open Scope list_scope.
Open Scope Z_scope.

(** ** C152: with a SimpleGymCollector, train() returns only if every collection succeeded: the memory was added to once
    for each step of the warmup and once for every [sc_per]-th batch.  Nothing is assumed about the environments, the agent
    and the memory, which may raise; the other callbacks do not raise before a batch is worked on, and do not touch bp_step
    then.  (The collector must not itself ask for the end, by a TrainingShutdownException from the agent, say.) *)
Theorem C152_all_collected : forall (S E : Type) (HSc : Scalar S) (O V : Type) (num : S -> R) (env : genv S E)
    (agent : V -> nat -> dict Z (obs S) -> res (dict Z (resp S))) (others : behaviour O V)
    eject_draws sample_draws (obj : dict string (cell S) -> O) pc ld sc size_key cbs fuel st0 envs t v s out,
  TrainSpec.total others cbs early -> leaves others cbs early "bp_step" ->
  NoDup (map cb_id cbs) -> In (sc_id sc) (map cb_id cbs) -> 0 < sc_per sc ->
  live_train (lab_act num env agent others eject_draws pc sc) (lab_next sample_draws obj ld (fun _ => Ok false))
    size_key cbs fuel st0 (lab_new envs t v) = (s, out) ->
  out = Returned \/ out = Running ->
  (forall ph c x st, cb_id c = sc_id sc -> ~ In (TCall ph c x st (Err Shutdown)) (wd_trace s)) ->
  Z.of_nat (additions (lb_notes (wd_world s))) = Z.of_nat (sc_warmup sc) + Z.of_nat (List.length (batches (wd_trace s))) / sc_per sc.
Proof. exact @returned_counted. Qed.
Print Assumptions C152_all_collected.

Definition ct_run agent per fuel := live_train (lab_act (fun _ => 1%R) ex_env agent lv_others (fun _ => []) (mkPc (Some 2) false) (mkSc 1 3 per))
  (lab_next (fun _ => [(2, 0)]) (fun d => d) lv_ld (fun _ => Ok false)) "batch_size" lv_cbs fuel []
  (lab_new [0%nat] (t_create gt_cols "actions" 100 (SWeighted (w_init false)) (EFifo fifo_init)) 7).
Example C152_fits : TrainSpec.total lv_others lv_cbs early /\ leaves lv_others lv_cbs early "bp_step".
Proof.
  split.
  - intros c ph x st w _ [-> | [-> | [-> | ->]]]; unfold lv_others, with_terminator; destruct (Nat.eqb (cb_id c) 3); try (eexists; reflexivity); destruct (Nat.eqb (cb_id c) 2); eexists; reflexivity.
  - intros c ph x st w u _ _ H. unfold lv_others, with_terminator in H. destruct (Nat.eqb (cb_id c) 3); [destruct ph|destruct (Nat.eqb (cb_id c) 2); [destruct ph|]]; cbn in H; try discriminate; injection H as <-; intros [].
Qed.
(** Six batches, and a collection at every fourth of them. *)
Example C152_run : match ct_run lv_agent 4 7 with
  (s, out) => out = Returned /\ List.length (batches (wd_trace s)) = 6%nat /\ additions (lb_notes (wd_world s)) = 4%nat end.
Proof. vm_compute. auto. Qed.
(** The agent of C151 that raises after the second update: here train() raises. *)
Example C152_reported : match ct_run th_breaks 4 7 with
  (s, out) => out = Raised ValueError /\ List.length (batches (wd_trace s)) = 4%nat /\ additions (lb_notes (wd_world s)) = 3%nat end.
Proof. vm_compute. auto. Qed.
