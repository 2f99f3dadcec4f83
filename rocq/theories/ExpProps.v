(** * ExpProps: an experiment runs to its end (C149) *)
From Coq Require Import Reals Lia.
From Verif Require Import Py MemModel MemSpec ProxyModel ProxySpec LoaderModel TrainModel TrainSpec TrainMain AgentModel AgentSpec
  GymModel GymSpec GymMisc GymTProps LiveModel LiveSpec LiveProps ExpSpec ExpMain.
Open Scope string_scope.
Open Scope list_scope.
Open Scope Z_scope.

(** ** C149: with a terminator after [n] steps, an experiment either trains for [n] steps and returns, or stops before its
    first batch because the warmup left too little in the memory *)
Theorem C149_experiment_ends : forall (S E : Type) (HSc : Scalar S) (O V : Type) (num : S -> R) (env : genv S E)
    (agent : V -> nat -> dict Z (obs S) -> res (dict Z (resp S))) (others : behaviour O V)
    eject_draws sample_draws (obj : dict string (cell S) -> O) pc ld sc envs cols maxlen smp dobs dact kmin id n cbs t fuel st0 v s out,
  (* the environments and the agent *)
  envs <> [] -> shows env dobs -> (forall v, answers_all dobs dact (agent v)) ->
  (* the memory keeps episodes that are long enough to sample from, and can hold every one *)
  pc_min pc = Some kmin -> Z.of_nat (ld_length ld) <= kmin -> (1 <= ld_length ld)%nat -> (1 <= ld_count ld)%nat ->
  config_ok cols "actions" -> fresh_sampler smp -> layout cols "actions" (pc_terminal pc) (mkSchema ["obs"] ["actions"]) ->
  gym_sizes dobs dact cols -> at_most env maxlen -> maxlen <= 2 ^ 53 ->
  (* the keys of the loader are its own *)
  ld_group ld <> ld_size_key ld -> ld_group ld <> "bp_samples" -> ld_group ld <> "inf_step" ->
  (* the callbacks: the collector, the terminator, and others that do not raise *)
  sc_per sc <> 0 -> terminator id n = Ok t -> In t cbs -> NoDup (map cb_id cbs) -> In (sc_id sc) (map cb_id cbs) -> id <> sc_id sc ->
  TrainSpec.total others cbs anytime -> leaves others cbs anytime "bp_step" -> leaves others cbs anytime "inf_step" -> leaves others cbs anytime "bp_samples" ->
  n <= Z.of_nat fuel ->
  live_train (lab_act num env agent (with_terminator id others) eject_draws pc sc) (lab_next sample_draws obj ld (fun _ => Ok false))
    (ld_size_key ld) cbs fuel st0 (lab_new envs (t_create cols "actions" maxlen smp (EFifo fifo_init)) v) = (s, out) ->
  (* drawing ends, and the agents' numbers fit in 64 bits *)
  out <> Raised Diverges -> (forall v os rs a, In (NAdd v os rs) (lb_notes (wd_world s)) -> In a (dkeys os) -> a < 2 ^ 63) ->
  (out = Returned /\ Z.of_nat (List.length (batches (wd_trace s))) = n /\
     forall c, In c cbs -> Z.of_nat (count PBackward (cb_id c) (calls (wd_trace s))) = n)
  \/ (out = Raised OtherError /\ batches (wd_trace s) = [] /\
     t_size (px_table (lb_px (wd_world s))) < Z.of_nat (ld_count ld) * Z.of_nat (ld_length ld)).
Proof. exact @experiment_ends. Qed.
Print Assumptions C149_experiment_ends.

(** The example of C147 with a smaller memory, which drops the oldest episodes. *)
Definition ex9_others : behaviour (dict string (cell Z)) Z :=
  fun c ph _ _ v => if Nat.eqb (cb_id c) 2 then match ph with PBackward => (v + 1, Ok []) | _ => (v, Ok []) end else (v, Ok []).
Definition ex9_run warmup maxlen draws fuel := live_train (lab_act (fun _ => 1%R) ex_env lv_agent (with_terminator 3 ex9_others) (fun _ => []) (mkPc (Some 2) false) (mkSc 1 warmup 1))
  (lab_next draws (fun d => d) lv_ld (fun _ => Ok false)) "batch_size" lv_cbs fuel []
  (lab_new [0%nat] (t_create gt_cols "actions" maxlen (SWeighted (w_init false)) (EFifo fifo_init)) 7).
Example C149_fits : at_most ex_env 2 /\ terminator 3 6 = Ok (mkCb 3 0 (Some 6)) /\
  TrainSpec.total ex9_others lv_cbs anytime /\ forall key, leaves ex9_others lv_cbs anytime key.
Proof.
  split; [|split; [reflexivity|split]].
  - intros e0 e o l e' o' R P F. cbn in R. injection R as <- <-.
    inversion P as [|? ? a1 x1 b1 l1 ? ? G1 P1]; subst; [cbn; lia|]. cbn in G1. injection G1 as <- <-.
    inversion P1 as [|? ? a2 x2 b2 l2 ? ? G2 P2]; subst; [cbn; lia|]. cbn in G2. injection G2 as <- <-.
    inversion P2 as [|? ? a3 x3 b3 l3 ? ? G3 P3]; subst; [cbn; lia|].
    exfalso. cbn in F. inversion F as [|? ? F1 F2]; subst. inversion F2 as [|? ? F3 F4]; subst. discriminate.
  - intros c ph x st w _ _. unfold ex9_others. destruct (Nat.eqb (cb_id c) 2); [destruct ph|]; eexists; reflexivity.
  - intros key c ph x st w u _ _ H. unfold ex9_others in H. destruct (Nat.eqb (cb_id c) 2); [destruct ph|]; injection H as <-; auto.
Qed.
(** The memory holds one episode: each draw finds the latest. *)
Example C149_returns : match ex9_run 3 2 (fun i => [(Z.of_nat (i / 2) + 2, 0)]) 6 with
  (s, out) => out = Returned /\ List.length (batches (wd_trace s)) = 6%nat /\ t_size (px_table (lb_px (wd_world s))) = 2 end.
Proof. vm_compute. auto. Qed.
Example C149_too_little : match ex9_run 1 2 (fun _ => []) 6 with
  (s, out) => out = Raised OtherError /\ batches (wd_trace s) = [] /\ t_size (px_table (lb_px (wd_world s))) = 0 end.
Proof. vm_compute. auto. Qed.
(** Without room for an episode, the experiment stops in its warmup. *)
Example C149_needs_room : match ex9_run 3 1 (fun _ => []) 6 with
  (s, out) => out = Raised OtherError /\ batches (wd_trace s) = [] /\ existsb (fun p => match fst p with PBeginTraining => Nat.eqb (cb_id (snd p)) 3 | _ => false end) (calls (wd_trace s)) = false end.
Proof. vm_compute. auto. Qed.
