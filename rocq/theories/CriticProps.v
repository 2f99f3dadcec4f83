(** * CriticProps: C138 *)
From Coq Require Import Reals Lra Lia.
From Verif Require Import Py MemModel MemSpec ProxyModel ProxySpec ProxyExamples MemExamples NumModel NumSpec E2ESpec E2EExamples
  PolModel CriticModel CriticSpec CriticProofs.
Open Scope string_scope.
Open Scope list_scope.
Open Scope R_scope.

(** Whatever agents did, and whichever windows the memory draws: the loss of a Q-learning
    batch is the average squared difference between the network's value of what an agent
    saw and did at each step and the return that agent got from there, bootstrapped with the
    greatest value the target network gives to what it saw at the end. *)
Theorem C138_dqn : forall (S : Type) (HS : Scalar S) (num : S -> R), num s_zero = 0 -> num s_one = 1 ->
  forall (pc : pconf) (cols : list (column S)) (lenkey : string) (maxlen : Z) (smp : sampler) (ej : ejector)
         (sch : schema) (h : list (pop S)) (p : proxy S) (count L : nat) (draws : list draw) (out : dict string (array S))
         (gamma scale : R) (reward : column S) (nexts : list (column S * column S)) (mask : column S)
         (obs : list (column S)) (action : column S) (n : nat)
         (q_net target_q_net : list (row (S:=S)) -> list R) (best : list (row (S:=S)) -> R),
  config_ok cols lenkey -> fresh_sampler smp -> fresh_ejector ej ->
  schema_ok (pc_terminal pc) sch -> layout cols lenkey (pc_terminal pc) sch ->
  batches_ok h -> agents_ok pc cols lenkey sch L h -> (1 <= L)%nat ->
  prun pc (px_new (t_create cols lenkey maxlen smp ej)) h = (p, Ok tt) ->
  snd (t_sample (px_table p) count L draws) = Ok out ->
  In reward cols -> is_base reward -> c_name reward = "rewards" ->
  (* [nexts]: the next-observation columns, with the observation columns they look into *)
  Forall (fun q => In (fst q) cols /\ (c_kind (fst q) = KVirt (c_name (snd q)) MNextLast
                                       \/ c_kind (fst q) = KVirt (c_name (snd q)) MNext /\ L = 1%nat)
                   /\ In (snd q) cols) nexts ->
  In mask cols -> (exists target, c_kind mask = KVirt target MMask) ->
  Forall (fun c => In c cols /\ is_base c /\ In (c_name c) (sc_obs sch)) obs ->
  In action cols -> is_base action -> In (c_name action) (sc_resp sch) ->
  (forall o, List.length (q_net o) = n) -> (forall o, greatest (target_q_net o) (best o)) ->
  chooses num action n h ->
  exists from taken, origin h count L from
    /\ (forall j t, (j < count)%nat -> (t < L)%nat ->
          did num action (fst (from j)) (snd (from j) + t) = [INR (taken j t)] /\ (taken j t < n)%nat)
    /\ dqn_critic gamma scale L q_net target_q_net
         (observations out (map (@c_name S) obs) (count * L)) (observations out (map (fun q => c_name (fst q)) nexts) count)
         (map (map num) (dget_default out (c_name action) []))
         (numbers num out (c_name reward)) (numbers num out (c_name mask)) =
       Ok (mean_over count L
             (fun j t => nth (taken j t) (q_net (seen_at obs (fst (from j)) (snd (from j) + t))) 0)
             (fun j t => experienced_target num gamma scale L true reward (map snd nexts) (fun _ => best) j (fst (from j)) (snd (from j)) t)).
Proof. exact @dqn_critic_ok. Qed.
Print Assumptions C138_dqn.

(** The loss of a soft actor critic's value network, likewise; the bootstrap is the soft
    value of what the agent saw at the end. *)
Theorem C138_sac : forall (S : Type) (HS : Scalar S) (num : S -> R), num s_zero = 0 -> num s_one = 1 ->
  forall (pc : pconf) (cols : list (column S)) (lenkey : string) (maxlen : Z) (smp : sampler) (ej : ejector)
         (sch : schema) (h : list (pop S)) (p : proxy S) (count L : nat) (draws : list draw) (out : dict string (array S))
         (gamma scale : R) (masking : bool) (reward : column S) (nexts : list (column S * column S)) (mask : column S)
         (obs : list (column S)) (action : column S)
         (policy : nat -> list (row (S:=S)) -> list R * R) (q q1t q2t : list R -> list (row (S:=S)) -> R) (ln_alpha : R),
  config_ok cols lenkey -> fresh_sampler smp -> fresh_ejector ej ->
  schema_ok (pc_terminal pc) sch -> layout cols lenkey (pc_terminal pc) sch ->
  batches_ok h -> agents_ok pc cols lenkey sch L h -> (1 <= L)%nat -> (1 <= count)%nat ->
  prun pc (px_new (t_create cols lenkey maxlen smp ej)) h = (p, Ok tt) ->
  snd (t_sample (px_table p) count L draws) = Ok out ->
  In reward cols -> is_base reward -> c_name reward = "rewards" ->
  Forall (fun q => In (fst q) cols /\ (c_kind (fst q) = KVirt (c_name (snd q)) MNextLast
                                       \/ c_kind (fst q) = KVirt (c_name (snd q)) MNext /\ L = 1%nat)
                   /\ In (snd q) cols) nexts ->
  In mask cols -> (exists target, c_kind mask = KVirt target MMask) ->
  Forall (fun c => In c cols /\ is_base c /\ In (c_name c) (sc_obs sch)) obs ->
  In action cols -> is_base action -> In (c_name action) (sc_resp sch) ->
  exists from, origin h count L from
    /\ sac_critic gamma scale L masking policy q q1t q2t ln_alpha
         (observations out (map (@c_name S) obs) (count * L)) (observations out (map (fun q => c_name (fst q)) nexts) count)
         (map (map num) (dget_default out (c_name action) []))
         (numbers num out (c_name reward)) (numbers num out (c_name mask)) =
       Ok (mean_over count L
             (fun j t => q (did num action (fst (from j)) (snd (from j) + t)) (seen_at obs (fst (from j)) (snd (from j) + t)))
             (fun j t => experienced_target num gamma scale L masking reward (map snd nexts)
                (soft_value policy q1t q2t (exp ln_alpha)) j (fst (from j)) (snd (from j)) t)).
Proof. exact @sac_critic_ok. Qed.
Print Assumptions C138_sac.

(** The memory and the agents of C132's example (where the other hypotheses are met) answer
    with numbers of 81 actions. *)
Example C138_ex :
  chooses IZR (mkCol "actions" 1 idz KBase) 81 px_h
  /\ greatest [1; 3; 2] 3
  /\ In ee_episode (episodes [] (stream 1%Z px_h))
  /\ did IZR (mkCol "actions" 1 idz KBase) ee_episode 1 = [61]
  /\ seen_at [mkCol "obs" 1 idz KBase] ee_episode 1 = [[11%Z]]
  /\ mean_over 1 2 (fun _ t => INR t) (fun _ _ => 3) = 13 / 2.
Proof.
  split; [|split; [|split; [|split; [|split]]]].
  - intros a ms m v I Im Ev. assert (X : exists z, v = [z] /\ (0 <= z < 81)%Z).
    { rewrite px_streams in I.
      destruct (a =? 0)%Z; [|destruct (a =? 1)%Z; [|destruct (a =? 2)%Z; [|destruct (a =? 7)%Z]]]; vm_compute in I; try tauto;
      (destruct I as [<-|[]]; cbn in Im; decompose [or] Im; try tauto; subst; vm_compute in Ev; try discriminate;
       injection Ev as <-; eexists; (split; [reflexivity|lia])). }
    destruct X as (z & -> & B). exists (Z.to_nat z). split; [lia|]. cbn. unfold idz.
    rewrite INR_IZR_INZ, Z2Nat.id by lia. reflexivity.
  - split; [cbn; auto|]. repeat (apply Forall_cons; [lra|]). apply Forall_nil.
  - left. vm_compute. reflexivity.
  - reflexivity.
  - reflexivity.
  - unfold mean_over. cbn. lra.
Qed.
