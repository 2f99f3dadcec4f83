(** * ActorModel: the batch losses of the policy and of its temperature, emote/algorithms/sac.py

    Networks work row by row, as in C138: [policy i o] is the sampled action and its
    log-probability for the observation [o] in row [i] of the batch.  Real numbers for
    floating point. *)
From Coq Require Import Reals.
From Verif Require Import Py NumModel PolModel LossModel.
Open Scope list_scope.
Open Scope R_scope.

Section Actor.
Context {O A : Type}.
(** self.policy( **observation ): emote/algorithms/sac.py:242 and emote/algorithms/sac.py:319 *)
Definition policy_rows (policy : nat -> O -> A * R) (observation : list O) : list (A * R) :=
  map (fun io => policy (fst io) (snd io)) (combine (seq 0 (List.length observation)) observation).
(** emote/algorithms/sac.py:241-256 PolicyLoss.loss *)
Definition actor_loss (policy : nat -> O -> A * R) (q1 : A -> O -> R) (q2 : option (A -> O -> R)) (ln_alpha : R)
    (observation : list O) : R :=
  let p_sample := map fst (policy_rows policy observation) in
  let logp_pi := map snd (policy_rows policy observation) in
  let values q := map (fun ao => q (fst ao) (snd ao)) (combine p_sample observation) in
  policy_loss ln_alpha logp_pi (values q1) (option_map values q2).
(** emote/algorithms/sac.py:317-326 AlphaLoss.loss *)
Definition temperature_loss (policy : nat -> O -> A * R) (t_entropy ln_alpha : R) (observation : list O) : R :=
  alpha_loss (map snd (policy_rows policy observation)) t_entropy ln_alpha.
End Actor.
