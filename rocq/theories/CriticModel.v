(** * CriticModel: the values that bootstrap the Q-targets of emote/algorithms/sac.py and
    emote/algorithms/dqn.py

    Networks work row by row: they are functions of one observation (the rows of all its
    columns), as in C132.  Real numbers for floating point. *)
From Coq Require Import Reals.
From Verif Require Import Py MemModel NumModel PolModel.
Open Scope list_scope.
Open Scope R_scope.

Section Critic.
Context {O : Type}.
(** [next_q_values.max(1)[0]], one row; emote/algorithms/dqn.py:56.  Simplification: of no
    values (PyTorch raises) it is zero. *)
Definition row_max (q : list R) : R := match q with [] => 0 | x :: r => fold_left Rmax r x end.
(** emote/algorithms/dqn.py:55-56 *)
Definition dqn_next_values (target_q_net : O -> list R) (next_observation : list O) : list R :=
  map (fun o => row_max (target_q_net o)) next_observation.
(** emote/algorithms/dqn.py:54-65 QTarget.begin_batch (terminals are always masked); the check
    at the end of NumModel.q_target is that of emote/algorithms/sac.py:164, which never fails. *)
Definition dqn_begin_batch (gamma reward_scale : R) (rollout_len : nat) (target_q_net : O -> list R)
    (next_observation : list O) (rewards masks : list R) : res (list R) :=
  q_target gamma reward_scale rollout_len true (dqn_next_values target_q_net) next_observation rewards masks.
(** emote/algorithms/sac.py:147-154: [policy i o] is the sampled action and its log-probability
    in row [i] of the batch. *)
Definition sac_next_values {A} (policy : nat -> O -> A * R) (q1t q2t : A -> O -> R) (ln_alpha : R)
    (next_observation : list O) : list R :=
  let alpha := exp ln_alpha in
  map (fun io => let '(next_p_sample, next_logp_pi) := policy (fst io) (snd io) in
                 let next_q1t := q1t next_p_sample (snd io) in
                 let next_q2t := q2t next_p_sample (snd io) in
                 let min_next_qt := Rmin next_q1t next_q2t in
                 min_next_qt - alpha * next_logp_pi)
      (combine (seq 0 (List.length next_observation)) next_observation).
(** emote/algorithms/sac.py:146-171 QTarget.begin_batch *)
Definition sac_begin_batch {A} (gamma reward_scale : R) (rollout_len : nat) (use_terminal_masking : bool)
    (policy : nat -> O -> A * R) (q1t q2t : A -> O -> R) (ln_alpha : R)
    (next_observation : list O) (rewards masks : list R) : res (list R) :=
  q_target gamma reward_scale rollout_len use_terminal_masking (sac_next_values policy q1t q2t ln_alpha)
           next_observation rewards masks.
End Critic.

(** What a batch goes through before the step of the optimizer: the target (computed in
    begin_batch, handed to the loss by the trainer, C47) and the loss. *)
Section Batch.
Context {O : Type}.
(** emote/algorithms/dqn.py:54-65 and emote/algorithms/dqn.py:111-115 *)
Definition dqn_critic (gamma reward_scale : R) (rollout_len : nat) (q_net target_q_net : O -> list R)
    (observation next_observation : list O) (actions : matrix) (rewards masks : list R) : res R :=
  rbind (dqn_begin_batch gamma reward_scale rollout_len target_q_net next_observation rewards masks) (fun qt =>
  dqn_loss (fun _ => Ok (map q_net observation)) [] (map (fun x => [x]) qt) actions).
(** emote/algorithms/sac.py:146-171 and emote/algorithms/sac.py:75-78.  The network's rows are
    one number each (emote/nn/action_value_mlp.py:35). *)
Definition sac_critic (gamma reward_scale : R) (rollout_len : nat) (use_terminal_masking : bool)
    (policy : nat -> O -> list R * R) (q q1t q2t : list R -> O -> R) (ln_alpha : R)
    (observation next_observation : list O) (actions : matrix) (rewards masks : list R) : res R :=
  rbind (sac_begin_batch gamma reward_scale rollout_len use_terminal_masking policy q1t q2t ln_alpha
           next_observation rewards masks) (fun qt =>
  q_loss (fun actions => Ok (map (fun ao => [q (fst ao) (snd ao)]) (combine actions observation)))
         actions (map (fun x => [x]) qt)).
End Batch.
