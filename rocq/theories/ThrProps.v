(** * ThrProps: an experiment whose data is collected by a second thread (C150, C151) *)
From Coq Require Import Reals Lia.
From Verif Require Import Py MemModel MemSpec ProxyModel ProxySpec LoaderModel TrainModel TrainSpec TrainMain AgentModel AgentSpec
  GymModel GymSpec GymMisc GymTProps LiveModel LiveSpec LiveProps ExpSpec ExpProps ThrModel ThrMain ThrEnd ThrOver.
Open Scope string_scope.
Open Scope list_scope.
Open Scope Z_scope.

(** ** C150: whatever the schedule of the two threads, every batch the trainer gets is made of steps that had happened
    and been added before it was drawn *)
Theorem C150_batches_happened : forall (S E : Type) (HSc : Scalar S) (O V : Type) (num : S -> R) (env : genv S E)
    (agent : V -> nat -> dict Z (obs S) -> res (dict Z (resp S))) (others : behaviour O V)
    eject_draws sample_draws (obj : dict string (cell S) -> O) pc ld tc sched stop envs cols maxlen smp dobs dact kmin size_key cbs fuel st0 v s out,
  envs <> [] -> shows env dobs -> (forall v, answers_all dobs dact (agent v)) ->
  pc_min pc = Some kmin -> Z.of_nat (ld_length ld) <= kmin -> (1 <= ld_length ld)%nat ->
  config_ok cols "actions" -> fresh_sampler smp -> layout cols "actions" (pc_terminal pc) (mkSchema ["obs"] ["actions"]) ->
  gym_sizes dobs dact cols -> at_most env maxlen -> maxlen <= 2 ^ 53 -> ld_group ld <> ld_size_key ld -> NoDup (map cb_id cbs) ->
  live_train (thr_act num env agent others eject_draws pc tc sched) (thr_next num env agent eject_draws sample_draws obj pc ld sched stop) size_key cbs fuel st0
    (thr_new envs (t_create cols "actions" maxlen smp (EFifo fifo_init)) v) = (s, out) ->
  Z.of_nat (List.length (lb_notes (tl_lab (wd_world s)))) <= 2 ^ 53 ->
  forall k b, In (TBatch k b) (wd_trace s) ->
  exists before rows after, lb_notes (tl_lab (wd_world s)) = before ++ NDrew rows :: after /\ batch_of obj ld rows b /\
    batch_sized cols rows (ld_count ld) (ld_length ld) /\ forall j, (j < ld_count ld)%nat -> rollout_happened env agent cols (ld_length ld) before rows j.
Proof. exact @threaded_happened. Qed.
Print Assumptions C150_batches_happened.

(** With a terminator after [n] steps, the experiment trains for [n] steps and returns, or stops before its first batch
    because there is too little in the memory; the collecting thread has ended.  As in C149: drawing ends, and the agents'
    numbers fit in 64 bits. *)
Theorem C150_experiment_ends : forall (S E : Type) (HSc : Scalar S) (O V : Type) (num : S -> R) (env : genv S E)
    (agent : V -> nat -> dict Z (obs S) -> res (dict Z (resp S))) (others : behaviour O V)
    eject_draws sample_draws (obj : dict string (cell S) -> O) pc ld tc sched envs cols maxlen smp dobs dact kmin id n cbs t fuel st0 v s out,
  envs <> [] -> shows env dobs -> (forall v, answers_all dobs dact (agent v)) ->
  pc_min pc = Some kmin -> Z.of_nat (ld_length ld) <= kmin -> (1 <= ld_length ld)%nat -> (1 <= ld_count ld)%nat ->
  config_ok cols "actions" -> fresh_sampler smp -> layout cols "actions" (pc_terminal pc) (mkSchema ["obs"] ["actions"]) ->
  gym_sizes dobs dact cols -> at_most env maxlen -> maxlen <= 2 ^ 53 ->
  ld_group ld <> ld_size_key ld -> ld_group ld <> "bp_samples" ->
  terminator id n = Ok t -> In t cbs -> NoDup (map cb_id cbs) -> In (tc_id tc) (map cb_id cbs) -> id <> tc_id tc ->
  TrainSpec.total others cbs anytime -> leaves others cbs anytime "bp_step" -> leaves others cbs anytime "bp_samples" ->
  n <= Z.of_nat fuel ->
  live_train (thr_act num env agent (with_terminator id others) eject_draws pc tc sched)
    (thr_next num env agent eject_draws sample_draws obj pc ld sched (fun _ => Ok false))
    (ld_size_key ld) cbs fuel st0 (thr_new envs (t_create cols "actions" maxlen smp (EFifo fifo_init)) v) = (s, out) ->
  out <> Raised Diverges -> (forall v os rs a, In (NAdd v os rs) (lb_notes (tl_lab (wd_world s))) -> In a (dkeys os) -> a < 2 ^ 63) ->
  (out = Returned /\ Z.of_nat (List.length (batches (wd_trace s))) = n /\
     (forall c, In c cbs -> Z.of_nat (count PBackward (cb_id c) (calls (wd_trace s))) = n) /\ tl_run (wd_world s) = false)
  \/ (out = Raised OtherError /\ batches (wd_trace s) = [] /\ tl_run (wd_world s) = false).
Proof. exact @threaded_ends. Qed.
Print Assumptions C150_experiment_ends.

(** The example of C149, its hypotheses met as in C147_fits and C149_fits; the collecting thread is now fast, now slow. *)
Definition th_run agent others warmup maxlen draws sched fuel := live_train
  (thr_act (fun _ => 1%R) ex_env agent (with_terminator 3 others) (fun _ => []) (mkPc (Some 2) false) (mkTc 1 warmup) sched)
  (thr_next (fun _ => 1%R) ex_env agent (fun _ => []) draws (fun d => d) (mkPc (Some 2) false) lv_ld sched (fun _ => Ok false)) "batch_size" lv_cbs fuel []
  (thr_new [0%nat] (t_create gt_cols "actions" maxlen (SWeighted (w_init false)) (EFifo fifo_init)) 7).
Definition th_adds (l : list (note Z Z)) : list Z := flat_map (fun x => match x with NAdd v _ _ => [v] | NDrew _ => [] end) l.
(** Actions by the weights of different updates came into the memory between the batches. *)
Example C150_returns : match th_run lv_agent ex9_others 3 100 (fun _ => [(2, 0)]) (fun i => (i mod 3)%nat) 6 with
  (s, out) => out = Returned /\ List.length (batches (wd_trace s)) = 6%nat /\ tl_run (wd_world s) = false /\
    existsb (Z.eqb 7) (th_adds (lb_notes (tl_lab (wd_world s)))) = true /\ existsb (Z.eqb 9) (th_adds (lb_notes (tl_lab (wd_world s)))) = true /\ existsb (Z.eqb 12) (th_adds (lb_notes (tl_lab (wd_world s)))) = true end.
Proof. vm_compute. repeat split. Qed.
(** Another schedule: the thread does nothing. *)
Example C150_idle : match th_run lv_agent ex9_others 3 100 (fun _ => [(2, 0)]) (fun _ => 0%nat) 6 with
  (s, out) => out = Returned /\ List.length (batches (wd_trace s)) = 6%nat /\ th_adds (lb_notes (tl_lab (wd_world s))) = [7; 7; 7] end.
Proof. vm_compute. auto. Qed.
Example C150_too_little : match th_run lv_agent ex9_others 1 100 (fun _ => []) (fun _ => 0%nat) 6 with
  (s, out) => out = Raised OtherError /\ batches (wd_trace s) = [] /\ tl_run (wd_world s) = false end.
Proof. vm_compute. auto. Qed.

(** ** C151: train() with a collecting thread leaves no thread behind and reports what went wrong in it *)
(** Once end_training has been called on the collector, its thread is gone when train() returns or raises, whatever else
    went wrong.  Missing: the cases of the two refutations below. *)
Theorem C151_thread_ended_partial : forall (S E : Type) (HSc : Scalar S) (O V : Type) (num : S -> R) (env : genv S E)
    (agent : V -> nat -> dict Z (obs S) -> res (dict Z (resp S))) (others : behaviour O V) eject_draws pc tc sched next size_key cbs fuel st0 w s out c,
  live_train (thr_act num env agent others eject_draws pc tc sched) next size_key cbs fuel st0 w = (s, out) ->
  In (PEndTraining, c) (calls (wd_trace s)) -> cb_id c = tc_id tc -> tl_run (wd_world s) = false.
Proof. exact @thread_over. Qed.
Print Assumptions C151_thread_ended_partial.
Example C151_ended : match th_run lv_agent ex9_others 3 100 (fun _ => [(2, 0)]) (fun _ => 1%nat) 4, th_run lv_agent ex9_others 3 100 (fun _ => [(2, 0)]) (fun _ => 1%nat) 6 with
  (s, out), (s', out') => out = Running /\ tl_run (wd_world s) = true /\
    out' = Returned /\ existsb (fun p => match fst p with PEndTraining => Nat.eqb (cb_id (snd p)) 1 | _ => false end) (calls (wd_trace s')) = true end.
Proof. vm_compute. auto. Qed.

(** When the begin_training of a later callback raises, train() raises and the thread goes on. *)
Definition th_refuses : behaviour (dict string (cell Z)) Z :=
  fun c ph _ _ v => match ph with PBeginTraining => if Nat.eqb (cb_id c) 2 then (v, Err ValueError) else (v, Ok []) | _ => (v, Ok []) end.
Theorem C151_thread_left_running_refuted : exists (others : behaviour (dict string (cell Z)) Z), match th_run lv_agent others 3 100 (fun _ => [(2, 0)]) (fun _ => 1%nat) 6 with
  (s, out) => out = Raised OtherError /\ tl_run (wd_world s) = true end.
Proof. exists th_refuses. vm_compute. auto. Qed.
Print Assumptions C151_thread_left_running_refuted.

(** When collecting raises in the thread, train() goes on to its end and returns as if nothing had happened: the agent
    below raises at each call after the second update, and the thread collects before each thing the trainer does. *)
Definition th_breaks (v : Z) : nat -> dict Z (obs Z) -> res (dict Z (resp Z)) := fun i os => if 9 <=? v then Err ValueError else lv_agent v i os.
Theorem C151_failure_not_reported_refuted : exists agent : Z -> nat -> dict Z (obs Z) -> res (dict Z (resp Z)),
  (forall v i os, 9 <= v -> agent v i os = Err ValueError) /\
  match th_run agent ex9_others 3 100 (fun _ => [(2, 0)]) (fun _ => 1%nat) 5, th_run agent ex9_others 3 100 (fun _ => [(2, 0)]) (fun _ => 1%nat) 6 with
  (s, out), (s', out') => out = Running /\ tl_run (wd_world s) = false /\
    out' = Returned /\ List.length (batches (wd_trace s')) = 6%nat /\ lb_v (tl_lab (wd_world s')) = 13 /\ ~ In 9 (th_adds (lb_notes (tl_lab (wd_world s')))) end.
Proof.
  exists th_breaks. split.
  - intros v i os Hv. unfold th_breaks. rewrite (proj2 (Z.leb_le 9 v) Hv). reflexivity.
  - vm_compute. intuition discriminate.
Qed.
Print Assumptions C151_failure_not_reported_refuted.
