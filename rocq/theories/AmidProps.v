(** * AmidProps: an add that other threads see in progress (C156) *)
From Verif Require Import Py MemModel MemSpec ProxyModel ProxySpec ProxyExamples GymTProps AmidModel AmidSpec AmidProofs.
Open Scope string_scope.
Open Scope list_scope.
Open Scope Z_scope.

(** ** C156: adding several agents in one call is adding them one at a time, also for other threads *)
(** What other threads find while an add is in progress is what they would find between additions of one agent at a time;
    and when the add has returned, the memory is as after these. *)
Theorem C156_in_progress : forall (S : Type) (HS : Scalar S) pc (p : proxy S) os rs us plan p' found r,
  NoDup (dkeys os) -> add_amid pc p os rs us plan = (p', found, r) ->
  (r = Ok tt -> exists h, one_by_one rs os (map snd found) h /\ prun pc p h = (p', Ok tt)) /\
  (forall before t u after, found = before ++ (t, u) :: after ->
     exists k h pk, one_by_one rs (firstn k os) (map snd before) h /\ prun pc p h = (pk, Ok tt) /\ px_table pk = t).
Proof. exact @in_progress. Qed.
Print Assumptions C156_in_progress.

(** And all additions of one agent at a time, with all that other threads may do in between, are an add in one call. *)
Theorem C156_together : forall (S : Type) (HS : Scalar S) pc (p : proxy S) os rs us h p',
  one_by_one rs os us h -> NoDup (dkeys os) -> prun pc p h = (p', Ok tt) ->
  exists us0 plan found, add_amid pc p os rs us0 plan = (p', found, Ok tt) /\ map snd found = us.
Proof. exact @together. Qed.
Print Assumptions C156_together.

(** When no other thread uses the memory. *)
Theorem C156_alone : forall (S : Type) (HS : Scalar S) pc (p : proxy S) os rs p', NoDup (dkeys os) ->
  (exists draws, proxy_add pc p os rs draws = (p', Ok tt)) <-> (exists h, one_by_one rs os [] h /\ prun pc p h = (p', Ok tt)).
Proof. exact @alone. Qed.
Print Assumptions C156_alone.

(** A batch drawn in the middle of an add holds rollouts of episodes the agents completed, counting this add. *)
Theorem C156_batch_during_add : forall (S : Type) (HS : Scalar S) pc cols lk maxlen smp ej sch (h : list (pop S)) p os rs dr us plan p' found r
    before t after count L draws out,
  config_ok cols lk -> fresh_sampler smp -> fresh_ejector ej ->
  schema_ok (pc_terminal pc) sch -> layout cols lk (pc_terminal pc) sch ->
  batches_ok (h ++ [PAdd os rs dr]) -> agents_ok pc cols lk sch L (h ++ [PAdd os rs dr]) -> (1 <= L)%nat ->
  prun pc (px_new (t_create cols lk maxlen smp ej)) h = (p, Ok tt) ->
  add_amid pc p os rs us plan = (p', found, r) -> uses_only (map snd found) ->
  found = before ++ (t, OSample count L draws) :: after ->
  snd (t_sample t count L draws) = Ok out ->
  batch_sized cols out count L /\
  forall j, (j < count)%nat ->
  exists a ms i, In ms (episodes [] (stream a (h ++ [PAdd os rs dr]))) /\ is_window cols sch out L j ms i.
Proof. exact @drawn_during_add. Qed.
Print Assumptions C156_batch_during_add.

(** Two agents finish in one add; a batch is drawn between the two. *)
Definition am_see s o : obs Z := mkObs (match s with INITIAL => [] | _ => [("reward", [1])] end) s [("obs", [o])].
Definition am_do a : resp Z := mkResp [("actions", [a])] [].
Definition am_h : list (pop Z) :=
  [PAdd [(0, am_see INITIAL 10); (1, am_see INITIAL 20)] [(0, am_do 1); (1, am_do 2)] [];
   PAdd [(0, am_see RUNNING 11); (1, am_see RUNNING 21)] [(0, am_do 3); (1, am_do 4)] []].
Definition am_os : dict Z (obs Z) := [(0, am_see TERMINAL 12); (1, am_see TERMINAL 22); (2, am_see INITIAL 30)].
Definition am_pc := mkPc (Some 2) false.
Definition am_new := px_new (t_create gt_cols "actions" 100 (SWeighted (w_init false)) (EFifo fifo_init)).
Definition am_add := add_amid am_pc (fst (prun am_pc am_new am_h)) am_os [(2, am_do 5)] [OSize] [([], [OSample 1 2 [(0, 0)]; OSize]); ([], [OSample 1 2 [(1, 0)]])].
Example C156_run : snd (prun am_pc am_new am_h) = Ok tt /\ snd am_add = Ok tt /\
  map (fun x => snd (t_sample (fst x) 1 2 [(1, 0)])) (snd (fst am_add)) =
    [Err ValueError; Err Diverges; Err Diverges;
     Ok [("obs", [[20]; [21]]); ("actions", [[2]; [4]]); ("rewards", [[1]; [1]]); ("next_obs", [[22]]); ("masks", [[1]; [0]])]] /\
  map snd (snd (fst am_add)) = [OSize; OSample 1 2 [(0, 0)]; OSize; OSample 1 2 [(1, 0)]].
Proof. vm_compute. auto. Qed.
(** The history of C29's example, in which a batch is drawn before its last add has returned. *)
Definition am_last : dict Z (obs Z) := [(2, ob INTERRUPTED 21); (1, ob INTERRUPTED 13)].
Example C156_during : px_h = removelast px_h ++ [PAdd am_last [] []] /\ batches_ok px_h /\ agents_ok px_pc px_cols "actions" px_sch 2 px_h /\
  match add_amid px_pc (fst (prun px_pc (px_new px_table0) (removelast px_h))) am_last [] [] [([], [OSample 1 2 [(1, 2 ^ 53 - 1)]])] with
  | (_, [(t, OSample n L d)], r) => r = Ok tt /\ snd (t_sample t n L d) =
      Ok [("obs", [[11]; [12]]); ("actions", [[61]; [62]]); ("rewards", [[1012]; [1013]]); ("terminal", [[1]]);
          ("next_obs", [[12]; [13]]); ("masks", [[1]; [0]])]
  | _ => False
  end.
Proof. split; [reflexivity|]. split; [apply px_batches|]. split; [apply px_agents|]. vm_compute. auto. Qed.
