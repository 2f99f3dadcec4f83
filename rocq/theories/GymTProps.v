(** * GymTProps: the targets of data a collector gathered (C133) *)
From Coq Require Import Reals Lra.
From Verif Require Import Py MemModel MemSpec ProxyModel ProxySpec AgentModel AgentSpec NumModel NumSpec GymModel GymSpec GymMisc E2ESpec GymTSpec GymTarget.
Open Scope string_scope.
Open Scope list_scope.
Open Scope Z_scope.

(** From the environments to the targets: data collected from environments, recorded through the proxy, sampled and
    turned into targets.  Every rollout is a part of an episode of the environment and the targets are its returns. *)
Theorem C133_returns : forall (S E : Type) (HSc : Scalar S) (env : genv S E) (num : S -> R), num s_zero = 0%R -> num s_one = 1%R ->
  forall (agent : nat -> dict Z (obs S) -> res (dict Z (resp S))) dobs dact, shows env dobs -> answers_all dobs dact agent ->
  forall draws envs count c outs pc cols maxlen smp ej (h : list (pop S)) p n L dr out k gamma scale masking reward
         (nexts : list (column S * column S)) mask (value : nat -> list (row (S:=S)) -> R),
  envs <> [] -> collect_run num env agent draws (gym_new envs) count = Ok (c, outs) ->
  adds_of h = map fst outs -> other_uses h -> Z.of_nat count <= 2 ^ 53 -> pc_min pc = Some k -> Z.of_nat L <= k -> (1 <= L)%nat ->
  config_ok cols "actions" -> fresh_sampler smp -> fresh_ejector ej -> layout cols "actions" (pc_terminal pc) (mkSchema ["obs"] ["actions"]) ->
  gym_sizes dobs dact cols ->
  prun pc (px_new (t_create cols "actions" maxlen smp ej)) h = (p, Ok tt) ->
  snd (t_sample (px_table p) n L dr) = Ok out ->
  In reward cols -> is_base reward -> c_name reward = "rewards" ->
  (* [nexts]: the next-observation columns, with the observation columns they look into *)
  Forall (fun q => In (fst q) cols /\ (c_kind (fst q) = KVirt (c_name (snd q)) MNextLast
                                       \/ c_kind (fst q) = KVirt (c_name (snd q)) MNext /\ L = 1%nat)
                   /\ In (snd q) cols) nexts ->
  In mask cols -> (exists tg, c_kind mask = KVirt tg MMask) ->
  exists qt,
    q_target gamma scale L masking (NumSpec.row_by_row value) (observations out (map (fun q => c_name (fst q)) nexts) n)
         (numbers num out (c_name reward)) (numbers num out (c_name mask)) = Ok qt
    /\ List.length qt = (n * L)%nat
    /\ forall j, (j < n)%nat -> exists l, List.length l = L /\ part_of_episode env l
       /\ forall t, (t < L)%nat -> nth_error qt (j * L + t) = Some (return_of num gamma scale masking reward (map snd nexts) (value j) l t).
Proof. exact @gym_targets. Qed.
Print Assumptions C133_returns.

Definition gt_cols : list (column Z) :=
  [mkCol "obs" 1 (fun x => x) KBase; mkCol "actions" 1 (fun x => x) KBase; mkCol "rewards" 1 (fun x => x) KBase;
   mkCol "next_obs" 1 (fun x => x) (KVirt "obs" MNextLast); mkCol "masks" 1 (fun x => x) (KVirt "actions" MMask)].
Example C133_fits : shows ex_env 1 /\ answers_all 1 1 ex_agent /\
  config_ok gt_cols "actions" /\ layout gt_cols "actions" false (mkSchema ["obs"] ["actions"]) /\ gym_sizes 1 1 gt_cols.
Proof.
  split; [exact ex_shows|]. split; [exact ex_answers|].
  split; [constructor|split].
  - repeat constructor; simpl; intuition discriminate.
  - intros c I. simpl in I. decompose [or] I; subst; simpl; try lia; tauto.
  - eexists. split; [right; left; reflexivity|]. split; reflexivity.
  - intros c tg m I K. simpl in I. decompose [or] I; subst; simpl in K; inversion K; subst; try tauto.
    + eexists. split; [left; reflexivity|]. split; reflexivity.
    + eexists. split; [right; left; reflexivity|]. split; reflexivity.
  - split; [intros n; simpl; tauto|]. split; [simpl; auto|]. intros c I. simpl in I. decompose [or] I; subst; simpl; auto. tauto.
  - intros c I. simpl in I. decompose [or] I; subst; simpl; auto. tauto.
Qed.
Example C133_sampled :
  snd (t_sample (px_table (fst (prun (mkPc (Some 2) false) (px_new (t_create gt_cols "actions" 100 (SWeighted (w_init false)) (EFifo fifo_init))) ex_hist))) 1 2 [(2, 0)]) =
  Ok [("obs", [[0]; [1]]); ("actions", [[5]; [5]]); ("rewards", [[1]; [1]]); ("next_obs", [[2]]); ("masks", [[1]; [0]])].
Proof. vm_compute. reflexivity. Qed.
(** The episode of the example and its returns, with a discount of 2. *)
Definition gt_steps : list (list Z * answer Z) := [([5], mkAns [1] 1 false false); ([5], mkAns [2] 1 false true)].
Example C133_episode : part_of_episode ex_env gt_steps /\
  (let r m := return_of IZR 2 1 m (mkCol "rewards" 1 (fun x => x) KBase) [mkCol "obs" 1 (fun x => x) KBase] (fun o => IZR (hd 0%Z (hd [] o))) gt_steps 0 in
   r true = 3 /\ r false = 11)%R.
Proof.
  split.
  - exists 7%nat, 0%nat, [0], [], 0%nat, 2%nat. split; [reflexivity|]. split; [constructor|]. split; [|split; [constructor|repeat constructor]].
    eapply steps_one; [reflexivity|]. eapply steps_one; [reflexivity|]. constructor.
  - unfold return_of, n_step_return, gt_steps. cbn. lra.
Qed.
