(** * RoomProps: memories with room for a batch and an episode never run low (C160), and stay nearly full once full (C161) *)
From Coq Require Import Lia.
From Verif Require Import Py MemModel MemSpec ProxyModel ProxySpec MemExamples ProxyExamples LoaderModel GapSpec JgapModel JgapSpec JgapProofs RoomSpec RoomProofs.
Open Scope string_scope.
Open Scope list_scope.
Open Scope Z_scope.

(** ** C160: a memory with capacity for [n] rows and one longest sequence, less one row, that once holds [n] rows always holds [n] rows *)
Theorem C160_never_runs_low : forall (S : Type) (HS : Scalar S) (cols : list (column S)) lk maxlen smp ej ops more longest n,
  config_ok cols lk -> fresh_sampler smp -> fresh_ejector ej -> client_ok cols (ops ++ more) ->
  none_longer lk (ops ++ more) longest -> n + longest - 1 <= maxlen ->
  n <= t_size (run (t_create cols lk maxlen smp ej) ops) -> n <= t_size (run (t_create cols lk maxlen smp ej) (ops ++ more)).
Proof. exact @never_low. Qed.
Print Assumptions C160_never_runs_low.

(** A joint loader of such memories keeps yielding, whatever other threads do to them (short of clearing). *)
Theorem C160_joint_keeps_yielding : forall (S : Type) (HS : Scalar S) (size_key : string) (ms : list (memory S)) ls rounds,
  ls = map (fun m => mkSource (m_pc m) (m_loader m) (fst (proxy_of m (m_done m)))) ms ->
  NoDup (map (fun m => ld_group (m_loader m)) ms) -> ~ In size_key (map (fun m => ld_group (m_loader m)) ms) ->
  (forall k m, nth_error ms k = Some m -> fits m (for_memory k rounds) /\ exists longest, roomy m (for_memory k rounds) longest) ->
  (forall m, In m ms -> holds_enough m (m_done m)) ->
  forall i, (i < List.length rounds)%nat -> (forall j, (j < i)%nat -> exists b, nth_error (joint_amid size_key ls rounds) j = Some (Ok b)) ->
  nth_error (joint_amid size_key ls rounds) i = Some (Err Diverges) \/
  exists b, nth_error (joint_amid size_key ls rounds) i = Some (Ok b) /\ dget b size_key = Some (ENum (zsum (map wanted ms))) /\
    forall k m, nth_error ms k = Some m -> shows_rollouts m (history k m rounds i) b.
Proof. exact joint_roomy. Qed.
Print Assumptions C160_joint_keeps_yielding.

(** The memories of C159's refutation with room for 5 rows: batches of 3, the longest episode has 3 steps.  With room for 4
    rows, one less, C159 is refuted. *)
Example C160_fits : forall k m, nth_error [jg_mem 5 "demos"; jg_mem 5 "default"] k = Some m ->
  fits m (for_memory k jg_rounds) /\ roomy m (for_memory k jg_rounds) 3 /\ holds_enough m (m_done m).
Proof.
  assert (R : forall g k, (k < 2)%nat -> roomy (jg_mem 5 g) (for_memory k jg_rounds) 3).
  { intros g k Hk. split; [|vm_compute; discriminate]. intros a ms. cbn [jg_mem m_done m_loader].
    assert (Ea : exists d1 d2, jg_h ++ doings (mkLoader 3 1 "batch_size" g) (for_memory k jg_rounds) = jg_all d1 d2) by (destruct k as [|[|k]]; [| |lia]; eexists; eexists; reflexivity).
    destruct Ea as (d1 & d2 & ->). rewrite jg_streams. destruct (a =? 0); [|destruct (a =? 1)]; intros I; vm_compute in I; [destruct I as [<-|[]]; vm_compute; discriminate|destruct I as [<-|[]]; vm_compute; discriminate|destruct I]. }
  intros [|[|[|k]]] m E; try discriminate; injection E as <-; (split; [apply jg_fits; [lia|discriminate|vm_compute; reflexivity]|]); (split; [apply R; lia|vm_compute; discriminate]).
Qed.
Example C160_run : map (fun r => match r with Ok b => dget b "batch_size" | Err _ => None end)
    (joint_amid "batch_size" (map (fun m => mkSource (m_pc m) (m_loader m) (fst (proxy_of m (m_done m)))) [jg_mem 5 "demos"; jg_mem 5 "default"]) jg_rounds)
  = [Some (ENum 6); Some (ENum 6)].
Proof. vm_compute. reflexivity. Qed.

(** ** C161: a memory that reports itself full misses less than one longest sequence of its capacity *)
Theorem C161_full_stays_nearly_full : forall (S : Type) (HS : Scalar S) (cols : list (column S)) lk maxlen smp ej ops longest,
  config_ok cols lk -> fresh_sampler smp -> fresh_ejector ej -> client_ok cols ops -> Forall no_resize ops -> none_longer lk ops longest ->
  let t := run (t_create cols lk maxlen smp ej) ops in t_full t = true -> maxlen - longest < t_size t.
Proof. exact @nearly_full. Qed.
Print Assumptions C161_full_stays_nearly_full.
Definition full_ops : list (op Z) := [OAdd 0 (ex_seq 0 4) []; OSample 1 1 [(0, 0)]; OAdd 1 (ex_seq 10 2) []].
Definition full_table : table Z := run (t_create ex_cols "actions" 5 (SWeighted (w_init false)) (EFifo fifo_init)) full_ops.
Example C161_fits : client_ok ex_cols full_ops /\ Forall no_resize full_ops /\ none_longer "actions" full_ops 4 /\ t_full full_table = true /\ t_size full_table = 2.
Proof.
  split; [split; [|split]|].
  - repeat constructor; discriminate.
  - repeat (apply Forall_cons; [apply ex_seq_ok|]). apply Forall_nil.
  - vm_compute. repeat constructor; simpl; intuition discriminate.
  - split; [repeat constructor|]. split; [repeat (apply Forall_cons; [vm_compute; discriminate|]); apply Forall_nil|]. vm_compute. auto.
Qed.
