(** * OnnxProps: the theorems for C69, and a case that meets their hypotheses

    Every theorem is about an exporter on a fresh storage, any programs of the main
    thread and of any number of other threads, any schedule, and any world: exports
    work or raise, and the clock says what it likes. *)
From Verif Require Import Py LockModel CrudModel CrudSpec CrudProofs OnnxModel OnnxSpec OnnxProofs OnnxMore OnnxExamples.
Open Scope string_scope.
Open Scope list_scope.
Open Scope Z_scope.

(** ** C69 *)
(** Exactly once and in queueing order. *)
Theorem C69_in_order : forall (T : Type) (c : config) (world : nat -> luck T) (dir prefix ext : string) (f : fs model_file)
    (s : state model_file T) (main : list main_job) (others : list (list req_job)),
  proper f -> init dir prefix ext f = Ok (c, s) ->
  forall sched, served_in_order (osteps c world sched (ostart s main others)).
Proof. exact (@run_in_order). Qed.
Print Assumptions C69_in_order.

(** The files: own metadata, versions and handles that go up. *)
Theorem C69_files : forall (T : Type) (c : config) (world : nat -> luck T) (dir prefix ext : string) (f : fs model_file)
    (s : state model_file T) (main : list main_job) (others : list (list req_job)),
  proper f -> init dir prefix ext f = Ok (c, s) ->
  forall sched, good_files (osteps c world sched (ostart s main others)).
Proof. exact (@run_files). Qed.
Print Assumptions C69_files.

(** What the metadata of a request is. *)
Theorem C69_metadata : forall (T : Type) (c : config) (world : nat -> luck T)
    (s : state model_file T) (main : list main_job) (others : list (list req_job)) (sched : list turn),
  Forall main_args_ok main -> Forall (Forall req_args_ok) others ->
  good_metadata (osteps c world sched (ostart s main others)).
Proof. exact (@run_metadata). Qed.
Print Assumptions C69_metadata.

(** What the callers get; no request is shared. *)
Theorem C69_own_results : forall (T : Type) (c : config) (world : nat -> luck T) (dir prefix ext : string) (f : fs model_file)
    (s : state model_file T) (main : list main_job) (others : list (list req_job)),
  proper f -> init dir prefix ext f = Ok (c, s) ->
  forall sched, let y := osteps c world sched (ostart s main others) in
  (forall i t p, nth_error (o_threads y) i = Some t -> nth_error others i = Some p -> own_results p y t)
  /\ NoDup (flat_map (@ids T) (o_threads y))
  /\ own_main_results y.
Proof.
  exact (fun T c world dir prefix ext f s main others P I sched =>
    conj (fun i t p => @run_own T c world dir prefix ext f s main others P I sched i t p)
      (conj (@run_distinct T c world dir prefix ext f s main others P I sched) (@run_main T c world dir prefix ext f s main others P I sched))).
Qed.
Print Assumptions C69_own_results.

(** When process_pending_exports or export returns normally, everything queued
    before the call has been exported.  Missing: when an export raises. *)
Theorem C69_answered_partial : forall (T : Type) (c : config) (world : nat -> luck T) (sched : list turn) (y : osys T)
    (j : main_job) (rest : list main_job) (o : option (item T)) (more : list (main_job * res (option (item T)))),
  (match j with MProcess | MExport _ => True | MAdd _ _ => False end) ->
  m_place (o_main y) = MIdle -> m_todo (o_main y) = j :: rest ->
  m_done (o_main (osteps c world sched y)) = m_done (o_main y) ++ (j, Ok o) :: more ->
  forall r, In r (o_queue y) ->
  exists x it, In x (o_served (osteps c world sched y)) /\ sv_req x = r /\ sv_result x = Ok it.
Proof. exact (@drained). Qed.
Print Assumptions C69_answered_partial.

(** process_pending_exports ends when nobody interferes. *)
Theorem C69_process_ends : forall (T : Type) (c : config) (world : nat -> luck T) (y : osys T) (rest : list main_job),
  m_place (o_main y) = MIdle -> m_todo (o_main y) = MProcess :: rest ->
  exists k r, (k <= 2 * List.length (o_queue y) + 2)%nat /\
    m_done (o_main (osteps c world (repeat Main k) y)) = m_done (o_main y) ++ [(MProcess, r)].
Proof. exact (@process_ends). Qed.
Print Assumptions C69_process_ends.

(** A requester whose export raised waits for ever. *)
Theorem C69_lost_finding : forall (T : Type) (c : config) (world : nat -> luck T) (dir prefix ext : string) (f : fs model_file)
    (s : state model_file T) (main : list main_job) (others : list (list req_job)),
  proper f -> init dir prefix ext f = Ok (c, s) ->
  forall sched more i t x, let y := osteps c world sched (ostart s main others) in
  In x (o_served y) -> (forall it, sv_result x <> Ok it) -> nth_error (o_threads y) i = Some t -> r_place t = RWait (rq_id (sv_req x)) ->
  nth_error (o_threads (osteps c world more y)) i = Some t.
Proof. exact (@run_lost). Qed.
Print Assumptions C69_lost_finding.

Theorem C69_lost_refuted : exists (c : config) (world : nat -> luck unit) (s : state model_file unit) main others sched,
  let y := osteps c world sched (ostart s main others) in
  exists t id, nth_error (o_threads y) 0 = Some t /\ r_place t = RWait id /\ (exists x, In x (o_served y) /\ rq_id (sv_req x) = id) /\
  forall more, nth_error (o_threads (osteps c world more y)) 0 = Some t.
Proof.
  exists onnx_config, second_fails, onnx_store, main_jobs, thread_jobs, lost_sched. exact stuck.
Qed.
Print Assumptions C69_lost_refuted.

(** Two threads and the main thread: four exports. *)
Example C69_case : proper onnx_disk /\ init "/m" "net" "onnx" onnx_disk = Ok (onnx_config, onnx_store)
  /\ Forall main_args_ok main_jobs /\ Forall (Forall req_args_ok) thread_jobs
  /\ onnx_view (osteps onnx_config fine onnx_sched (ostart onnx_store main_jobs thread_jobs)) =
  ([(0%nat, 0, Some (File (mkFile 0 [("author", "b")]))); (1%nat, 1, Some (File (mkFile 1 [("author", "a"); ("k", "1")])));
    (2%nat, 2, Some (File (mkFile 2 [("author", "a"); ("k", "2")]))); (3%nat, 3, Some (File (mkFile 3 [("author", "a"); ("k", "own")])))],
   [[(1%nat, 1)]; [(0%nat, 0); (2%nat, 2)]], main_jobs).
Proof.
  split; [exact onnx_proper|]. split; [exact onnx_init|]. split; [exact main_jobs_ok|]. split; [exact thread_jobs_ok|]. vm_compute. reflexivity.
Qed.
(** The main thread about to process two queued requests. *)
Example C69_drain_case : exists sched, let y := osteps onnx_config fine sched (ostart onnx_store main_jobs thread_jobs) in
  m_place (o_main y) = MIdle /\ (exists rest, m_todo (o_main y) = MProcess :: rest) /\ List.length (o_queue y) = 2%nat
  /\ exists sched', m_done (o_main (osteps onnx_config fine sched' y)) = m_done (o_main y) ++ [(MProcess, Ok None)].
Proof.
  exists [Main; Thread 0; Thread 1; Thread 1; Thread 0]. cbv zeta. split; [vm_compute; reflexivity|].
  split; [exists [MExport [("k", "own")]]; vm_compute; reflexivity|]. split; [vm_compute; reflexivity|].
  exists [Main; Main; Main; Main; Main; Main]. vm_compute. reflexivity.
Qed.
