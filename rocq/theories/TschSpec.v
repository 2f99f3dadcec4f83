(** * TschSpec: what a training with a collecting thread adds and draws, told from the hooks and batches (for C157) *)
From Verif Require Import Py TrainModel LiveModel ThrModel.
Open Scope list_scope.

Section Told.
Context {S O V : Type}.

(** What happened to the memory, in order: an addition by an agent with the weights [v], or a batch drawn. *)
Inductive mark : Type := Added (v : V) | Drawn.
Definition marks (l : list (note S V)) : list mark :=
  map (fun x => match x with NAdd v _ _ => Added v | NDrew _ => Drawn end) l.

(** The callbacks other than the collector, the collector, the schedule; whether collecting may fail at all. *)
Variables (others : behaviour O V) (tc : tconf) (sched : nat -> nat) (fails : Prop).

(** Before the [n]-th thing the trainer does, with the weights [v]: a thread that runs collects as often as it is
    scheduled, or fails on the way and is gone. *)
Inductive meanwhile (n : nat) (v : V) : bool -> list mark -> bool -> Prop :=
| m_no_thread : meanwhile n v false [] false
| m_collects : meanwhile n v true (repeat (Added v) (sched n)) true
| m_fails k : fails -> (k < sched n)%nat -> meanwhile n v true (repeat (Added v) k) false.

(** What a hook does to the memory, the thread and the weights: begin_training of the collector adds the warmup and starts
    the thread, its end_training ends the thread, its other hooks do nothing; other callbacks change the weights only. *)
Inductive hook (c : callback) (ph : phase) (x : option exn) (st : tstate O) (v : V) (running : bool) : res (tstate O) -> list mark -> V -> bool -> Prop :=
| h_other v' r : cb_id c <> tc_id tc -> others c ph x st v = (v', r) -> hook c ph x st v running r [] v' running
| h_begin : cb_id c = tc_id tc -> ph = PBeginTraining -> hook c ph x st v running (Ok []) (repeat (Added v) (tc_warmup tc)) v true
| h_begin_fails e k : cb_id c = tc_id tc -> ph = PBeginTraining -> fails -> (k <= tc_warmup tc)%nat -> hook c ph x st v running (Err e) (repeat (Added v) k) v running
| h_end : cb_id c = tc_id tc -> ph = PEndTraining -> hook c ph x st v running (Ok []) [] v false
| h_idle : cb_id c = tc_id tc -> ph <> PBeginTraining -> ph <> PEndTraining -> hook c ph x st v running (Ok []) [] v running.

(** [so_far v0 tr over n v running ms]: when the trainer has done the [n] things that [tr] tells, having begun with the
    weights [v0], the weights are [v], the thread is [running] or not, and [ms] is what happened to the memory.
    One thing is not in [tr]: the last turn of a loader that has no batch for the trainer; then it is [over]. *)
Inductive so_far (v0 : V) : list (entry O) -> bool -> nat -> V -> bool -> list mark -> Prop :=
| s_new : so_far v0 [] false 0 v0 false []
| s_hook tr over n v running ms running1 ms1 ph c x st r ms2 v' running' :
    so_far v0 tr over n v running ms -> meanwhile n v running ms1 running1 -> hook c ph x st v running1 r ms2 v' running' ->
    so_far v0 (tr ++ [TCall ph c x st r]) over (1 + n) v' running' (ms ++ ms1 ++ ms2)
| s_batch tr n v running ms running' ms1 k b :
    so_far v0 tr false n v running ms -> meanwhile n v running ms1 running' ->
    so_far v0 (tr ++ [TBatch k b]) false (1 + n) v running' (ms ++ ms1 ++ [Drawn])
| s_no_batch tr n v running ms running' ms1 ms2 :
    so_far v0 tr false n v running ms -> meanwhile n v running ms1 running' -> ms2 = [] \/ ms2 = [Drawn] ->
    so_far v0 tr true (1 + n) v running' (ms ++ ms1 ++ ms2).
End Told.
