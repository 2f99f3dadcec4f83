(** * LoaderProps: C33 - C38. *)
From Verif Require Import Py PyLemmas MemModel MemSpec MemExamples MemProps2 ProxyModel ProxyExamples
  LoaderModel LoaderSpec LoaderProofs.
Open Scope string_scope.
Open Scope list_scope.
Open Scope Z_scope.

(** ** C33: the counters, over calls of add and restarts from a saved state. *)
Theorem C33_inferences_exact :
  forall (S I : Type) (inner_add : I -> dict Z (obs S) -> dict Z (resp S) -> I * res unit)
         (interval : Z) (i : I) (h : list (lop S I)),
  lw_infs (lrun inner_add (logw_new interval i) h) = zsum (map n_obs h).
Proof. intros. rewrite lrun_infs. reflexivity. Qed.
Print Assumptions C33_inferences_exact.

(** Finished episodes are counted as observations minus responses, which is
    right when exactly the agents that go on get a response. *)
Theorem C33_episodes_partial :
  forall (S I : Type) (inner_add : I -> dict Z (obs S) -> dict Z (resp S) -> I * res unit)
         (interval : Z) (i : I) (h : list (lop S I)),
  Forall answers_ok h ->
  lw_eps (lrun inner_add (logw_new interval i) h) = zsum (map n_final h).
Proof. intros. rewrite lrun_eps by assumption. reflexivity. Qed.
Print Assumptions C33_episodes_partial.

Definition id_add (i : unit) (_ : dict Z (obs Z)) (_ : dict Z (resp Z)) : unit * res unit := (i, Ok tt).
Definition ex_batch : lop Z unit :=
  LAdd [(1, ob RUNNING 10); (2, ob TERMINAL 11); (3, ob INITIAL 12)] [(3, ac 60); (1, ac 61)].

Example C33_example : Forall answers_ok [ex_batch; LRestart 5 tt; ex_batch] /\
  lw_eps (lrun id_add (logw_new 3 tt) [ex_batch; LRestart 5 tt; ex_batch]) = 2 /\
  lw_infs (lrun id_add (logw_new 3 tt) [ex_batch; LRestart 5 tt; ex_batch]) = 6.
Proof.
  assert (A : answers_ok ex_batch).
  { split; [repeat constructor; cbn; intuition lia|]. split; [repeat constructor; cbn; intuition lia|].
    intros a. cbn. split.
    - intros [<-|[<-|[]]]; eexists; split; eauto.
    - intros (o & [E|[E|[E|[]]]] & F); inversion E; subst; auto; discriminate. }
  split; [repeat (apply Forall_cons; [first [exact A|exact Logic.I]|]); apply Forall_nil|]. vm_compute. auto.
Qed.

(** A response for an agent whose episode ended makes the count wrong. *)
Theorem C33_episodes_refuted :
  exists h : list (lop Z unit),
    zsum (map n_final h) = 1 /\ lw_eps (lrun id_add (logw_new 3 tt) h) = 0.
Proof. exists [LAdd [(1, ob TERMINAL 10)] [(1, ac 60)]]. vm_compute. auto. Qed.
Print Assumptions C33_episodes_refuted.

(** The statistics are written once every [n] calls, at the step which is the
    number of observations so far. *)
Theorem C33_log_cycles :
  forall (S I : Type) (inner_add : I -> dict Z (obs S) -> dict Z (resp S) -> I * res unit)
         (n : nat) (i : I) (h : list (lop S I)),
  (0 < n)%nat -> Forall is_ladd h ->
  lw_cycles (lrun inner_add (logw_new (Z.of_nat n) i) h) =
  map (fun k => zsum (map n_obs (firstn (k * n) h))) (seq 1 (List.length h / n)).
Proof. intros S I f n i h Hn F. exact (proj2 (proj2 (lrun_cycles f i Hn F))). Qed.
Print Assumptions C33_log_cycles.

Example C33_cycles_example :
  Forall is_ladd [ex_batch; ex_batch; ex_batch; ex_batch; ex_batch] /\
  lw_cycles (lrun id_add (logw_new 2 tt) [ex_batch; ex_batch; ex_batch; ex_batch; ex_batch]) = [6; 12].
Proof. split; [repeat constructor|reflexivity]. Qed.

(** ** C34: exactly when an export happens. *)
Theorem C34_export_iff :
  forall (per min_time t0 : Z) (pre : list ecall) (c : ecall) (post : list ecall),
  let past := combine pre (exports (expw_new per min_time t0) pre) in
  nth_error (exports (expw_new per min_time t0) (pre ++ c :: post)) (List.length pre) = Some true <->
  succeeded c = true /\ per < fst (since t0 past) /\ snd (since t0 past) + min_time < ec_now c.
Proof. exact export_iff. Qed.
Print Assumptions C34_export_iff.

(** Between any two exports lie more than [per] successful additions and more
    than [min_time]. *)
Theorem C34_export_gap :
  forall (per min_time t0 : Z) (pre : list ecall) (c : ecall) (mid : list ecall) (c' : ecall)
         (post : list ecall),
  0 <= min_time ->
  let exported := exports (expw_new per min_time t0) (pre ++ c :: mid ++ c' :: post) in
  nth_error exported (List.length pre) = Some true ->
  nth_error exported (List.length pre + Datatypes.S (List.length mid)) = Some true ->
  per < zlen (filter succeeded mid) /\ ec_now c + min_time < ec_now c'.
Proof. exact export_gap. Qed.
Print Assumptions C34_export_gap.

Definition at_ (t : Z) : ecall := mkEcall (Ok tt) t (Ok tt).
Example C34_example :
  exports (expw_new 1 10 0) [at_ 1; at_ 20; mkEcall (Err ValueError) 25 (Ok tt); at_ 30; at_ 35; at_ 36; at_ 37; at_ 41] =
  [false; false; false; true; false; false; false; true].
Proof. reflexivity. Qed.

(** ** C35: a ready loader, while other threads keep using the memory. *)
Theorem C35_ready_loader_yields :
  forall (S : Type) (HS : Scalar S) (cols : list (column S)) (lenkey : string) (maxlen : Z)
         (smp : sampler) (ej : ejector) (l : loader) (ops : list (op S)) (draws : list draw)
         (rounds : list (list (op S) * list draw)),
  let t := run (t_create cols lenkey maxlen smp ej) ops in
  let all_ops := ops ++ concat (map fst rounds) in
  ld_group l <> ld_size_key l -> (1 <= ld_count l)%nat ->
  sampling_ok cols lenkey smp ej all_ops (ld_length l) ->
  Forall (fun x => - 2 ^ 63 <= fst x < 2 ^ 63) (adds all_ops) ->
  is_ready l t = true ->
  let out := iterate l GNew t (([], draws) :: rounds) in
  ~ In (Err Diverges) out ->
  Forall (fun r => exists b, r = Ok b /\ full_batch cols l b) out.
Proof.
  intros S HS cols lenkey maxlen smp ej l ops draws rounds.
  exact (@iterate_ready S HS cols lenkey maxlen smp ej l ops draws rounds).
Qed.
Print Assumptions C35_ready_loader_yields.

(** A loader that is not ready says so. *)
Theorem C35_not_ready :
  forall (S : Type) (HS : Scalar S) (l : loader) (t : table S) (draws : list draw)
         (r : list (list (op S) * list draw)),
  is_ready l t = false <-> t_size t < Z.of_nat (ld_count l) * Z.of_nat (ld_length l) /\
  hd_error (iterate l GNew t (([], draws) :: r)) = Some (Err OtherError).
Proof.
  intros S HS l t draws r. split.
  - intros R. rewrite not_ready by assumption. split; [|reflexivity].
    unfold is_ready in R. apply Z.leb_gt in R. exact R.
  - intros [E _]. apply Z.leb_gt. exact E.
Qed.
Print Assumptions C35_not_ready.

Definition ex_loader : loader := mkLoader 2 2 "batch_size" "default".
Definition ex_rounds : list (list (op Z) * list draw) :=
  [([OAdd 10 (ex_seq 50 6) []], [(10, 0); (10, 0)]); ([OSize; OFull], [(10, 0); (10, 0)])].
Example C35_example :
  let t := run (ex_create 9 (SWeighted (w_init false)) (EFifo fifo_init)) ex_ops in
  is_ready ex_loader t = true /\
  sampling_ok ex_cols "actions" (SWeighted (w_init false)) (EFifo fifo_init)
    (ex_ops ++ concat (map fst ex_rounds)) 2 /\
  Forall (fun x => - 2 ^ 63 <= fst x < 2 ^ 63) (adds (ex_ops ++ concat (map fst ex_rounds))) /\
  map is_ok (iterate ex_loader GNew t (([], [(7, 0); (8, 0)]) :: ex_rounds)) = [true; true; true].
Proof.
  split; [reflexivity|]. split; [|split; [|reflexivity]].
  - split; [apply ex_config_ok|]. split; [constructor|]. split; [constructor|].
    split; [solve_client|]. split; [lia|].
    cbn [ex_ops ex_rounds adds app concat map fst].
    repeat (apply Forall_cons; [cbn [snd]; rewrite ex_seq_len; split; [apply ex_col_ok; lia|lia]|]). apply Forall_nil.
  - cbn [ex_ops ex_rounds adds app concat map fst].
    repeat (apply Forall_cons; [vm_compute; split; [discriminate|reflexivity]|]). apply Forall_nil.
Qed.

(** ** C36 *)
Theorem C36_duplicate_groups_rejected :
  forall ls : list loader, joint_ok ls = Ok tt <-> NoDup (map ld_group ls).
Proof. exact joint_ok_iff. Qed.
Print Assumptions C36_duplicate_groups_rejected.

(** One entry per loader, which is the entry the loader itself yields, and the
    sum of the sizes; no group may be called like a size. *)
Theorem C36_joint_batch :
  forall (S : Type) (HS : Scalar S) (sk : string) (ls : list (loader * table S)) (g : gen)
         (draws : list (list draw)),
  g <> GDone ->
  Forall (fun lt => ld_group (fst lt) <> sk /\ ld_group (fst lt) <> ld_size_key (fst lt)) ls ->
  joint_ok (map fst ls) = Ok tt ->
  (forall i l t, nth_error ls i = Some (l, t) ->
     is_ready l t = true /\ is_ok (snd (load_one l t (nth i draws []))) = true) ->
  exists ls' out, joint_next sk ls g draws = (GRunning, ls', Ok out) /\
    dkeys out = sk :: map (fun lt => ld_group (fst lt)) ls /\
    dget out sk = Some (ENum (zsum (map (fun lt => Z.of_nat (ld_count (fst lt)) * Z.of_nat (ld_length (fst lt))) ls))) /\
    forall i l t, nth_error ls i = Some (l, t) ->
      exists b, snd (load_one l t (nth i draws [])) = Ok b /\
                dget out (ld_group l) = dget b (ld_group l) /\ dget b (ld_group l) <> None.
Proof.
  intros S HS sk ls g draws Hg F J Hr. apply joint_ok_iff in J. rewrite map_map in J.
  apply joint_next_ok; try assumption. apply Forall_map. exact F.
Qed.
Print Assumptions C36_joint_batch.

(** The variant with one data group: the same, one level down. *)
Theorem C36_grouped_batch :
  forall (S : Type) (HS : Scalar S) (sk group : string) (ls ls' : list (loader * table S))
         (draws : list (list draw)) (out : batch S) (total : Z),
  group <> sk -> NoDup (dkeys out) ->
  joint_next sk ls GNew draws = (GRunning, ls', Ok out) -> dget out sk = Some (ENum total) ->
  exists b, group_next sk group ls GNew draws = (GRunning, ls', Ok b) /\
    dget b sk = Some (ENum total) /\ dkeys b = [group; sk] /\
    exists d, dget b group = Some (EGroups d) /\ dget d sk = None /\ forall k, k <> sk -> dget d k = dget out k.
Proof. intros S HS sk group ls ls' draws out total. exact (@group_next_ok S HS sk group ls draws ls' out total). Qed.
Print Assumptions C36_grouped_batch.

Definition ex_loader2 : loader := mkLoader 1 2 "n" "demo".
Definition ex_table : table Z := run (ex_create 9 (SWeighted (w_init false)) (EFifo fifo_init)) ex_ops.
Definition ex_joint : list (loader * table Z) := [(ex_loader, ex_table); (ex_loader2, ex_table)].
Definition ex_jdraws : list (list draw) := [[(7, 0); (8, 0)]; [(9, 0)]].
Example C36_example :
  Forall (fun lt => ld_group (fst lt) <> "batch_size" /\ ld_group (fst lt) <> ld_size_key (fst lt)) ex_joint /\
  joint_ok (map fst ex_joint) = Ok tt /\
  (forall i l t, nth_error ex_joint i = Some (l, t) ->
     is_ready l t = true /\ is_ok (snd (load_one l t (nth i ex_jdraws []))) = true) /\
  exists ls' out, joint_next "batch_size" ex_joint GNew ex_jdraws = (GRunning, ls', Ok out) /\
    dkeys out = ["batch_size"; "default"; "demo"] /\ dget out "batch_size" = Some (ENum 6) /\
    joint_ok [ex_loader; ex_loader] = Err ValueError.
Proof.
  split; [repeat (apply Forall_cons; [split; discriminate|]); apply Forall_nil|].
  split; [reflexivity|]. split.
  - assert (A : is_ready ex_loader ex_table = true /\
                is_ok (snd (load_one ex_loader ex_table (nth 0 ex_jdraws []))) = true) by (vm_compute; auto).
    assert (B : is_ready ex_loader2 ex_table = true /\
                is_ok (snd (load_one ex_loader2 ex_table (nth 1 ex_jdraws []))) = true) by (vm_compute; auto).
    unfold ex_joint. generalize dependent ex_table. intros tt A B.
    intros [|[|[|i]]] l t E; cbn [nth_error] in E; try discriminate; injection E as <- <-; assumption.
  - eexists _, _. split; [vm_compute; reflexivity|]. vm_compute. auto.
Qed.

(** A group called like the size key breaks the joint loader. *)
Theorem C36_group_named_size_finding :
  exists (ls : list (loader * table Z)) (draws : list (list draw)),
    joint_ok (map fst ls) = Ok tt /\
    snd (joint_next "batch_size" ls GNew draws) = Err TypeError.
Proof.
  exists [(mkLoader 1 2 "n" "batch_size", snd (hd (ex_loader, ex_create 0 (SWeighted (w_init false)) (EFifo fifo_init)) ex_joint))],
    [[(9, 0)]].
  vm_compute. auto.
Qed.
Print Assumptions C36_group_named_size_finding.

(** ** C37: MemoryLoader and JointMemoryLoader never run out. *)
Theorem C37_loader_keeps_yielding_partial :
  forall (S : Type) (HS : Scalar S) (l : loader) (t : table S)
         (rounds : list (list (op S) * list draw)) (k : nat),
  let out := iterate l GNew t rounds in
  (forall j, (j < k)%nat -> exists b, nth_error out j = Some (Ok b)) ->
  nth_error out k <> Some (Err StopIteration).
Proof. intros S HS l t rounds k. apply loader_keeps. discriminate. Qed.
Print Assumptions C37_loader_keeps_yielding_partial.

Theorem C37_joint_keeps_yielding_partial :
  forall (S : Type) (HS : Scalar S) (sk : string) (ls : list (loader * table S))
         (draws : list (list (list draw))) (k : nat),
  let out := joint_iterate (joint_next sk) ls GNew draws in
  (forall j, (j < k)%nat -> exists b, nth_error out j = Some (Ok b)) ->
  nth_error out k <> Some (Err StopIteration).
Proof. intros S HS sk ls draws k. apply joint_keeps. discriminate. Qed.
Print Assumptions C37_joint_keeps_yielding_partial.

Example C37_example :
  map is_ok (joint_iterate (joint_next "batch_size") ex_joint GNew [ex_jdraws; ex_jdraws; ex_jdraws]) =
  [true; true; true].
Proof. vm_compute. reflexivity. Qed.

(** JointMemoryLoaderWithDataGroup always stops after its first batch. *)
Theorem C37_grouped_loader_stops_refuted :
  (forall (S : Type) (HS : Scalar S) (sk group : string) (ls : list (loader * table S))
          (d : list (list draw)) (draws : list (list (list draw))) (b : batch S),
   nth_error (joint_iterate (group_next sk group) ls GNew (d :: draws)) 0 = Some (Ok b) ->
   joint_iterate (group_next sk group) ls GNew (d :: draws) = Ok b :: map (fun _ => Err StopIteration) draws) /\
  exists b, joint_iterate (group_next "batch_size" "all") ex_joint GNew [ex_jdraws; ex_jdraws] =
            [Ok b; Err StopIteration].
Proof.
  split; [intros S HS; exact group_stops|]. eexists. vm_compute. reflexivity.
Qed.
Print Assumptions C37_grouped_loader_stops_refuted.

(** ** C38: how the warm-up ends. *)
Theorem C38_warmup_returns_when_ready :
  forall (has_exporter : bool) (ps : list poll),
  fst (warmup has_exporter ps) = Ok tt <->
  exists pre p post, ps = pre ++ p :: post /\
    Forall (fun q => po_ready q = false /\ (has_exporter = true -> po_export q = Ok tt) /\ po_shutdown q = false) pre /\
    po_ready p = true.
Proof.
  intros hx ps. destruct (warmup hx ps) as [x n] eqn:E. exact (proj1 (warmup_iff hx ps E)).
Qed.
Print Assumptions C38_warmup_returns_when_ready.

Theorem C38_warmup_shutdown :
  forall (has_exporter : bool) (ps : list poll),
  fst (warmup has_exporter ps) = Err Shutdown ->
  exists pre p post, ps = pre ++ p :: post /\
    Forall (fun q => po_ready q = false /\ (has_exporter = true -> po_export q = Ok tt) /\ po_shutdown q = false) pre /\
    po_ready p = false /\
    (po_shutdown p = true \/ (has_exporter = true /\ po_export p = Err Shutdown)).
Proof.
  intros hx ps. destruct (warmup hx ps) as [x n] eqn:E. exact (proj1 (proj2 (warmup_iff hx ps E))).
Qed.
Print Assumptions C38_warmup_shutdown.

(** Exports are processed once at every poll that finds the loaders not ready. *)
Theorem C38_warmup_processes_exports :
  forall (ps : list poll),
  exists pre, (exists post, ps = pre ++ post) /\ snd (warmup true ps) = List.length pre /\
    Forall (fun p => po_ready p = false) pre /\
    (fst (warmup true ps) = Ok tt -> exists p post, ps = pre ++ p :: post /\ po_ready p = true).
Proof.
  intros ps. destruct (warmup true ps) as [x n] eqn:E.
  exact (proj2 (proj2 (proj2 (warmup_iff true ps E))) eq_refl).
Qed.
Print Assumptions C38_warmup_processes_exports.

Example C38_example :
  let wait := mkPoll false (Ok tt) false in
  warmup true [wait; wait; mkPoll true (Ok tt) false] = (Ok tt, 2%nat) /\
  warmup true [wait; mkPoll false (Ok tt) true; wait] = (Err Shutdown, 2%nat) /\
  warmup false [wait; mkPoll false (Err KeyError) true] = (Err Shutdown, 0%nat).
Proof. vm_compute. auto. Qed.
