(** * ActorProps: C141 *)
From Coq Require Import Reals Lra Lia.
From Verif Require Import Py MemModel MemSpec ProxyModel ProxySpec ProxyExamples MemExamples NumModel NumSpec E2ESpec CriticSpec
  LossModel AlgoModel AlgoSpec AmpModel EnsModel DynModel DynSpec ActorModel ActorSpec ActorProofs.
Open Scope string_scope.
Open Scope list_scope.
Open Scope R_scope.

(** C141.  Whatever agents did, and whichever windows the memory draws: the loss of the policy
    is the average, over what agents saw, of the temperature times the log-probability of
    the action the policy takes there, minus the critics' opinion of it; the loss of the
    temperature is the average, over the same, of its logarithm times the surplus of entropy. *)
Theorem C141_actor : forall (S : Type) (HS : Scalar S)
    (pc : pconf) (cols : list (MemModel.column S)) (lenkey : string) (maxlen : Z) (smp : sampler) (ej : ejector)
    (sch : schema) (h : list (pop S)) (p : proxy S) (count L : nat) (draws : list draw) (out : dict string (array S))
    (obs : list (MemModel.column S)) (A : Type) (policy : nat -> list (row (S:=S)) -> A * R)
    (q1 : A -> list (row (S:=S)) -> R) (q2 : option (A -> list (row (S:=S)) -> R)) (ln_alpha t_entropy : R),
  config_ok cols lenkey -> fresh_sampler smp -> fresh_ejector ej ->
  schema_ok (pc_terminal pc) sch -> layout cols lenkey (pc_terminal pc) sch ->
  batches_ok h -> agents_ok pc cols lenkey sch L h -> (1 <= L)%nat ->
  prun pc (px_new (t_create cols lenkey maxlen smp ej)) h = (p, Ok tt) ->
  snd (t_sample (px_table p) count L draws) = Ok out ->
  Forall (fun c => In c cols /\ is_base c /\ In (c_name c) (sc_obs sch)) obs ->
  exists from, origin h count L from /\
    let seen j t := seen_at obs (fst (from j)) (snd (from j) + t) in
    actor_loss policy q1 q2 ln_alpha (observations out (map (@c_name S) obs) (count * L)) =
      average count L (fun r j t => exp ln_alpha * snd (policy r (seen j t)) - cautious q1 q2 (fst (policy r (seen j t))) (seen j t))
    /\ temperature_loss policy t_entropy ln_alpha (observations out (map (@c_name S) obs) (count * L)) =
      average count L (fun r j t => ln_alpha * (- snd (policy r (seen j t)) - t_entropy)).
Proof. exact @actor_ok. Qed.
Print Assumptions C141_actor.

(** The transitions a dynamics model is trained on are what agents experienced: *)
Theorem C141_transitions : forall (S : Type) (HS : Scalar S) (num : S -> R)
    (pc : pconf) (cols : list (MemModel.column S)) (lenkey : string) (maxlen : Z) (smp : sampler) (ej : ejector)
    (sch : schema) (h : list (pop S)) (p : proxy S) (count : nat) (draws : list draw) (out : dict string (array S))
    (obs next action reward : MemModel.column S),
  config_ok cols lenkey -> fresh_sampler smp -> fresh_ejector ej ->
  schema_ok (pc_terminal pc) sch -> layout cols lenkey (pc_terminal pc) sch ->
  batches_ok h -> agents_ok pc cols lenkey sch 1 h ->
  prun pc (px_new (t_create cols lenkey maxlen smp ej)) h = (p, Ok tt) ->
  snd (t_sample (px_table p) count 1 draws) = Ok out ->
  In obs cols -> is_base obs -> In (c_name obs) (sc_obs sch) ->
  In next cols -> c_kind next = KVirt (c_name obs) MNext ->
  In action cols -> is_base action -> In (c_name action) (sc_resp sch) ->
  In reward cols -> is_base reward -> c_name reward = "rewards" ->
  exists from, origin h count 1 from /\
    drawn num out (c_name obs) (c_name next) (c_name action) (c_name reward) = experienced num obs action reward count from.
Proof. exact @drawn_ok. Qed.
Print Assumptions C141_transitions.

(** its loss is the average squared error of what it predicts for what they saw and did,
    against what they saw next and received. *)
Theorem C141_dynamics : forall (S : Type) (HS : Scalar S) (num : S -> R)
    (pc : pconf) (cols : list (MemModel.column S)) (lenkey : string) (maxlen : Z) (smp : sampler) (ej : ejector)
    (sch : schema) (h : list (pop S)) (p : proxy S) (count : nat) (draws : list draw) (out : dict string (array S))
    (obs next action reward : MemModel.column S)
    lr f dims n_obs n_action bs m key network (observation next_observation : dict string matrix) m' loss,
  config_ok cols lenkey -> fresh_sampler smp -> fresh_ejector ej ->
  schema_ok (pc_terminal pc) sch -> layout cols lenkey (pc_terminal pc) sch ->
  batches_ok h -> agents_ok pc cols lenkey sch 1 h ->
  prun pc (px_new (t_create cols lenkey maxlen smp ej)) h = (p, Ok tt) ->
  snd (t_sample (px_table p) count 1 draws) = Ok out ->
  In obs cols -> is_base obs -> In (c_name obs) (sc_obs sch) ->
  In next cols -> c_kind next = KVirt (c_name obs) MNext ->
  In action cols -> is_base action -> In (c_name action) (sc_resp sch) ->
  In reward cols -> is_base reward -> c_name reward = "rewards" ->
  let b := drawn num out (c_name obs) (c_name next) (c_name action) (c_name reward) in
  dims_exist n_obs dims -> processes n_obs f ->
  trained_on (dm_new lr f dims) bs m -> Forall (fits n_obs n_action) (bs ++ [b]) ->
  dget observation key = Some (t_obs b) -> dget next_observation key = Some (t_next b) ->
  model_loss key m network observation next_observation (t_action b) (t_reward b) = Ok (m', loss) ->
  exists from, origin h count 1 from /\ let x := experienced num obs action reward count from in
  exists predicted mean units,
    AlgoModel.sample m' (det_sample network) (t_action x) (t_obs x) = Ok (returns predicted)
    /\ sizes lr count n_obs predicted
    /\ nm_stats (dm_target m') = Some (mean, map Some units) /\ Forall (fun u => 0 < u) units
    /\ loss = Some (mean_of (all_errors units (joined predicted) (happened lr (t_next x) (t_reward x)))).
Proof. exact @dynamics_ok. Qed.
Print Assumptions C141_dynamics.

(** The memory and agents of C29's example; a batch of two transitions, of agents 1 and 0. *)
Example C141_case :
  config_ok px_cols "actions" /\ schema_ok true px_sch /\ layout px_cols "actions" true px_sch /\ batches_ok px_h
  /\ agents_ok px_pc px_cols "actions" px_sch 1 px_h
  /\ exists p out, prun px_pc (px_new px_table0) px_h = (p, Ok tt)
     /\ snd (t_sample (px_table p) 2 1 [(1, 2 ^ 53 - 1); (0, 0)]%Z) = Ok out
     /\ drawn IZR out "obs" "next_obs" "actions" "rewards" = mkTr [[12]; [0]] [[13]; [1]] [[62]; [50]] [[1013]; [1001]]
     /\ fits 1 1 (drawn IZR out "obs" "next_obs" "actions" "rewards").
Proof.
  split; [exact px_config|]. split; [exact px_schema|]. split; [exact px_layout|]. split; [exact px_batches|].
  split; [exact (@agents_shorter Z _ px_pc px_cols "actions" px_sch 2 1 px_h ltac:(lia) px_agents)|].
  eexists. eexists. split; [vm_compute; reflexivity|]. split; [vm_compute; reflexivity|].
  split; [reflexivity|]. unfold fits. cbn. repeat split; repeat constructor.
Qed.
(** Two critics, a policy that goes up by one, and the log-probability -2: *)
Example C141_values :
  let policy (i : nat) (o : list (list Z)) := (hd 0%Z (hd [] o) + 1, -2)%Z in
  actor_loss (fun i o => (fst (policy i o), -2)) (fun a _ => IZR a) (Some (fun a _ => 10)) 0 [[[12%Z]]; [[0%Z]]] = - (15 / 2)
  /\ temperature_loss (fun i o => (fst (policy i o), -2)) (-1) 5 [[[12%Z]]; [[0%Z]]] = 15.
Proof.
  cbv zeta. unfold actor_loss, temperature_loss, LossModel.alpha_loss, PolModel.policy_loss, np_mean, policy_rows. cbn.
  rewrite exp_0. unfold Rmin. destruct (Rle_dec 13 10) as [X|X]; [lra|]. destruct (Rle_dec 1 10) as [Y|Y]; [|lra]. split; lra.
Qed.
