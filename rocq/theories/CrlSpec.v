(** * CrlSpec: what a critic learns from in an experiment (for C154) *)
From Coq Require Import Reals.
From Verif Require Import Py MemModel MemSpec ProxyModel NumModel NumSpec CriticModel CriticSpec GymModel GymTSpec LiveModel LiveSpec LtgSpec.
Open Scope string_scope.
Open Scope list_scope.
Open Scope R_scope.

(** The columns a critic's loss reads besides those of the target: the observation and the action. *)
Definition critic_columns {S} (cols : list (column S)) (obs action : column S) : Prop :=
  In obs cols /\ is_base obs /\ c_name obs = "obs" /\ In action cols /\ is_base action /\ c_name action = "actions".

Section Spec.
Context {S E V : Type} {HS : Scalar S}.
Variable (num : S -> R) (env : genv S E) (agent : V -> nat -> dict Z (obs S) -> res (dict Z (resp S))).
(** What the agent saw, as networks are given it, and what it did, in numbers. *)
Definition seen (obs : column S) (x : estep S) : list (row (S:=S)) := [map (c_cast obs) (es_saw x)].
Definition done (action : column S) (x : estep S) : list R := map num (map (c_cast action) (es_did x)).
(** [step j t], for [j] below [n] and [t] below [L]: [n] stretches of [L] steps, each of one episode, that were taken and
    added as noted in [notes]. *)
Definition stretches (notes : list (note S V)) (n L : nat) (step : nat -> nat -> estep S) : Prop :=
  forall j, (j < n)%nat -> in_an_episode env (map (step j) (seq 0 L)) /\ Forall (was_taken agent notes) (map (step j) (seq 0 L)).
(** The return of step [t] of stretch [j]. *)
Definition stretch_return gamma scale masking (reward : column S) (obs : list (column S)) value (L : nat) (step : nat -> nat -> estep S) (j t : nat) : R :=
  return_of num gamma scale masking reward obs (value j) (map (fun x => (es_did x, es_got x)) (map (step j) (seq 0 L))) t.

(** The loss of a SAC critic on this batch is the mean square of what the network says of (what was seen, what was done)
    minus the return that followed, over stretches that happened. *)
Definition sac_learns (cols : list (column S)) (n L : nat) (notes : list (note S V)) (rows : dict string (array S)) : Prop :=
  forall gamma scale masking reward mask nexts obs action policy q q1t q2t ln_alpha,
  (1 <= n)%nat -> target_columns cols L reward mask nexts -> critic_columns cols obs action ->
  exists step, stretches notes n L step /\
    sac_critic gamma scale L masking policy q q1t q2t ln_alpha
      (observations rows [c_name obs] (n * L)) (observations rows (map (fun q => c_name (fst q)) nexts) n)
      (map (map num) (dget_default rows (c_name action) [])) (numbers num rows (c_name reward)) (numbers num rows (c_name mask)) =
    Ok (mean_over n L (fun j t => q (done action (step j t)) (seen obs (step j t)))
          (stretch_return gamma scale masking reward (map snd nexts) (soft_value policy q1t q2t (exp ln_alpha)) L step)).

(** That of a DQN critic, when what the agents do is the number of one of [m] actions. *)
Definition dqn_learns (cols : list (column S)) (n L : nat) (notes : list (note S V)) (rows : dict string (array S)) : Prop :=
  forall gamma scale reward mask nexts obs action q_net target_q_net best m,
  (1 <= n)%nat -> target_columns cols L reward mask nexts -> critic_columns cols obs action ->
  (forall o, List.length (q_net o) = m) -> (forall o, greatest (target_q_net o) (best o)) ->
  (forall x, was_taken agent notes x -> exists a, (a < m)%nat /\ done action x = [INR a]) ->
  exists step taken, stretches notes n L step /\
    (forall j t, (j < n)%nat -> (t < L)%nat -> done action (step j t) = [INR (taken j t)] /\ (taken j t < m)%nat) /\
    dqn_critic gamma scale L q_net target_q_net
      (observations rows [c_name obs] (n * L)) (observations rows (map (fun q => c_name (fst q)) nexts) n)
      (map (map num) (dget_default rows (c_name action) [])) (numbers num rows (c_name reward)) (numbers num rows (c_name mask)) =
    Ok (mean_over n L (fun j t => nth (taken j t) (q_net (seen obs (step j t))) 0)
          (stretch_return gamma scale true reward (map snd nexts) (fun _ => best) L step)).
End Spec.
