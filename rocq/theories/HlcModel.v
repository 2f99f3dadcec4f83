(** * HlcModel: an HL-Gauss critic under a soft actor critic's targets

    The network answers one row of logits for each action and observation, row by row. *)
From Coq Require Import Reals.
From Verif Require Import Py MemModel NumModel PolModel AlgoModel HlgModel CriticModel.
Open Scope list_scope.
Open Scope R_scope.

(** emote/algorithms/sac.py:146-171 QTarget.begin_batch, then emote/algorithms/hlgauss.py:144-149
    QLoss.loss: what is logged as the prediction, and the loss.  [logit_net] is [q._logit_net]
    of emote/algorithms/hlgauss.py:38-44; its width is the number of bins. *)
Definition hl_critic {O} (erf : R -> R) (smoothing_ratio min max : R) (bins : nat) (gamma reward_scale : R) (rollout_len : nat)
    (use_terminal_masking : bool) (policy : nat -> O -> list R * R) (logit_net : list R -> O -> list R)
    (q1t q2t : list R -> O -> R) (ln_alpha : R)
    (observation next_observation : list O) (actions : matrix) (rewards masks : list R) : res (val * val) :=
  rbind (sac_begin_batch gamma reward_scale rollout_len use_terminal_masking policy q1t q2t ln_alpha
           next_observation rewards masks) (fun qt =>
  qloss_loss erf smoothing_ratio min max bins bins
    (map (fun ao => logit_net (fst ao) (snd ao)) (combine actions observation)) qt).
