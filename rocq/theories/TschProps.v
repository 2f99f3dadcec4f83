(** * TschProps: when a collecting thread collects, and with which weights (C157) *)
From Coq Require Import Reals Lia.
From Verif Require Import Py MemModel MemSpec ProxyModel ProxySpec LoaderModel TrainModel TrainSpec GymModel GymSpec GymMisc GymTProps LiveModel LiveSpec LiveProps
  ExpSpec ExpProps ThrModel ThrProps TschSpec TschProofs.
Open Scope string_scope.
Open Scope list_scope.
Open Scope Z_scope.

(** ** C157: what happens to the memory is told by the trainer's hooks and batches: the warmup at begin_training, then what
    the thread collects, always with the weights of that moment, until end_training *)
Theorem C157_collects_as_told : forall (S E : Type) (HSc : Scalar S) (O V : Type) (num : S -> R) (env : genv S E)
    (agent : V -> nat -> dict Z (obs S) -> res (dict Z (resp S))) (others : behaviour O V)
    eject_draws sample_draws (obj : dict string (cell S) -> O) pc ld tc sched stop envs t size_key cbs fuel st0 v s out,
  live_train (thr_act num env agent others eject_draws pc tc sched) (thr_next num env agent eject_draws sample_draws obj pc ld sched stop) size_key cbs fuel st0
    (thr_new envs t v) = (s, out) ->
  exists over n v' running, so_far others tc sched True v (wd_trace s) over n v' running (marks (lb_notes (tl_lab (wd_world s)))).
Proof. exact @told_anyhow. Qed.
Print Assumptions C157_collects_as_told.

(** Under the conditions of C150 no collection fails. *)
Theorem C157_collects_all : forall (S E : Type) (HSc : Scalar S) (O V : Type) (num : S -> R) (env : genv S E)
    (agent : V -> nat -> dict Z (obs S) -> res (dict Z (resp S))) (others : behaviour O V)
    eject_draws sample_draws (obj : dict string (cell S) -> O) pc ld tc sched stop envs cols maxlen smp dobs dact kmin size_key cbs fuel st0 v s out,
  envs <> [] -> shows env dobs -> (forall v, answers_all dobs dact (agent v)) ->
  pc_min pc = Some kmin -> Z.of_nat (ld_length ld) <= kmin -> (1 <= ld_length ld)%nat ->
  config_ok cols "actions" -> fresh_sampler smp -> layout cols "actions" (pc_terminal pc) (mkSchema ["obs"] ["actions"]) ->
  gym_sizes dobs dact cols -> at_most env maxlen -> maxlen <= 2 ^ 53 -> ld_group ld <> ld_size_key ld -> NoDup (map cb_id cbs) ->
  live_train (thr_act num env agent others eject_draws pc tc sched) (thr_next num env agent eject_draws sample_draws obj pc ld sched stop) size_key cbs fuel st0
    (thr_new envs (t_create cols "actions" maxlen smp (EFifo fifo_init)) v) = (s, out) ->
  exists over n v' running, so_far others tc sched False v (wd_trace s) over n v' running (marks (lb_notes (tl_lab (wd_world s)))).
Proof. exact @told_exactly. Qed.
Print Assumptions C157_collects_all.

(** The example of C150; its hypotheses are met as in C147_fits and C149_fits.  The callback 2 trains: the weights are 7 and
    one more with each backward.  The thread collects often, or never. *)
Example C157_often : match th_run lv_agent ex9_others 3 100 (fun _ => [(2, 0)]) (fun i => (i mod 3)%nat) 2 with
  (s, out) => out = Running /\ marks (lb_notes (tl_lab (wd_world s))) =
    repeat (Added 7) 6 ++ [Drawn] ++ repeat (Added 7) 6 ++ repeat (Added 8) 6 ++ [Drawn] ++ repeat (Added 8) 4 ++ repeat (Added 9) 5 end.
Proof. vm_compute. split; reflexivity. Qed.
Example C157_never : match th_run lv_agent ex9_others 3 100 (fun _ => [(2, 0)]) (fun _ => 0%nat) 2 with
  (s, out) => out = Running /\ marks (lb_notes (tl_lab (wd_world s))) = repeat (Added 7) 3 ++ [Drawn; Drawn] end.
Proof. vm_compute. split; reflexivity. Qed.
(** What is told is definite: after begin_training of the collector with a warmup of 2, two additions were made with
    the first weights, no less and with no others. *)
Example C157_tells : ~ exists n v running, so_far (fun _ _ _ _ v => (v + 1, Ok [])) (mkTc 1 2) (fun _ => 5%nat) False 7
  [TCall PBeginTraining (mkCb 1 0 None) None (@nil (string * value Z)) (Ok [])] false n v running [Added 7].
Proof. intros (n & v & running & T). apply told_begin in T as [T _]; [discriminate|reflexivity]. Qed.
