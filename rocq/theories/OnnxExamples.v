(** * OnnxExamples: two requesting threads, an export that works and one that raises *)
From Verif Require Import Py LogModel LockModel CrudModel CrudSpec CrudProofs OnnxModel OnnxSpec OnnxProofs OnnxMore.
Set Implicit Arguments.
Unset Strict Implicit.
Open Scope string_scope.
Open Scope list_scope.
Open Scope Z_scope.

Definition onnx_disk : CrudModel.fs model_file := [("/m", Folder)].
Definition onnx_config : CrudModel.config := mkConfig "/m" "net" "onnx".
Definition onnx_store : CrudModel.state model_file unit := mkState 0 [] onnx_disk.
Lemma onnx_proper : proper onnx_disk.
Proof. unfold proper, onnx_disk. simpl. repeat constructor; simpl; intuition discriminate. Qed.
Lemma onnx_init : init "/m" "net" "onnx" onnx_disk = Ok (onnx_config, onnx_store). Proof. reflexivity. Qed.
(** Every export works; or every export but the second. *)
Definition fine : nat -> luck unit := fun n => mkLuck "1" tt None.
Definition second_fails : nat -> luck unit := fun n => mkLuck "1" tt (match n with 1%nat => Some RuntimeError | _ => None end).
Definition main_jobs : list main_job := [MAdd "author" "a"; MProcess; MExport [("k", "own")]].
Definition thread_jobs : list (list req_job) := [[RExport [("k", "1")]; RAdd "k" "2"]; [RExport [("author", "b")]; RExport []]].
Lemma main_jobs_ok : Forall main_args_ok main_jobs. Proof. repeat constructor; simpl; intros []. Qed.
Lemma thread_jobs_ok : Forall (Forall req_args_ok) thread_jobs. Proof. repeat constructor; simpl; intros []. Qed.
(** Both threads queue a request, the main thread serves them; then the second
    thread and the main thread. *)
Definition onnx_sched : list turn :=
  [Main; Thread 0; Thread 1; Thread 1; Thread 0; Main; Main; Main; Main; Main; Main; Thread 0; Thread 0; Thread 1; Thread 1; Thread 1;
   Main; Main; Main; Main; Main; Main; Main; Main; Thread 1].
Definition onnx_end : osys unit := osteps onnx_config fine onnx_sched (ostart onnx_store main_jobs thread_jobs).
Definition lost_sched : list turn := [Main; Thread 0; Thread 1; Thread 1; Thread 0; Main; Main; Main; Main; Main].
Definition onnx_lost : osys unit := osteps onnx_config second_fails lost_sched (ostart onnx_store main_jobs thread_jobs).
Definition onnx_view {T} (y : osys T) :=
  (map (fun e => (rq_id (fst (fst e)), it_handle (snd (fst e)), snd e)) (exported y),
   map (fun t => map (fun d => (fst d, it_handle (snd d))) (r_done t)) (o_threads y), map fst (m_done (o_main y))).
Lemma onnx_end_view : onnx_view onnx_end =
  ([(0%nat, 0, Some (File (mkFile 0 [("author", "b")]))); (1%nat, 1, Some (File (mkFile 1 [("author", "a"); ("k", "1")])));
    (2%nat, 2, Some (File (mkFile 2 [("author", "a"); ("k", "2")]))); (3%nat, 3, Some (File (mkFile 3 [("author", "a"); ("k", "own")])))],
   [[(1%nat, 1)]; [(0%nat, 0); (2%nat, 2)]], main_jobs).
Proof. vm_compute. reflexivity. Qed.
Lemma onnx_lost_view y : y = onnx_lost -> exists x, In x (o_served y) /\ sv_result x = Err RuntimeError /\
  nth_error (o_threads y) 0 = Some (mkReq [RAdd "k" "2"] (RWait (rq_id (sv_req x))) []).
Proof. intros ->. eexists. split; [vm_compute; right; left; reflexivity|]. vm_compute. auto. Qed.
Lemma onnx_lost_stuck y more i t x : y = onnx_lost -> 
  In x (o_served y) -> (forall it, sv_result x <> Ok it) -> nth_error (o_threads y) i = Some t -> r_place t = RWait (rq_id (sv_req x)) ->
  nth_error (o_threads (osteps onnx_config second_fails more y)) i = Some t.
Proof. intros ->. unfold onnx_lost. apply (@run_lost unit onnx_config second_fails "/m" "net" "onnx" onnx_disk onnx_store main_jobs thread_jobs onnx_proper onnx_init lost_sched). Qed.
Lemma stuck_at y : y = onnx_lost ->
  exists t id, nth_error (o_threads y) 0 = Some t /\ r_place t = RWait id /\ (exists x, In x (o_served y) /\ rq_id (sv_req x) = id) /\
  forall more, nth_error (o_threads (osteps onnx_config second_fails more y)) 0 = Some t.
Proof.
  intros Y. destruct (onnx_lost_view Y) as (x & I & E & N).
  exists (mkReq [RAdd "k" "2"] (RWait (rq_id (sv_req x))) []), (rq_id (sv_req x)). split; [exact N|]. split; [reflexivity|].
  split; [exists x; auto|]. intros more. apply (onnx_lost_stuck more Y I); auto. rewrite E. discriminate.
Qed.
Lemma stuck : let y := osteps onnx_config second_fails lost_sched (ostart onnx_store main_jobs thread_jobs) in
  exists t id, nth_error (o_threads y) 0 = Some t /\ r_place t = RWait id /\ (exists x, In x (o_served y) /\ rq_id (sv_req x) = id) /\
  forall more, nth_error (o_threads (osteps onnx_config second_fails more y)) 0 = Some t.
Proof. intros y. apply stuck_at. vm_compute. reflexivity. Qed.
