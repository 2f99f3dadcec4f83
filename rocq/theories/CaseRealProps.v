(** * CaseRealProps: the log variance of an ensemble (C82), the state of an optimizer (C83) *)
From Coq Require Import Reals Lra Lia.
From Verif Require Import Py NumModel AlgoModel LossModel AgentModel AgentOpt  CaseReal.
Open Scope list_scope.
Open Scope R_scope.

(** C82: the log variance of an ensemble grows with the raw prediction of each of its members, ... *)
Theorem C82_ensemble_grows : forall min_logvar max_logvar before after l l', l < l' ->
  ensemble_logvar min_logvar max_logvar (before ++ l :: after) < ensemble_logvar min_logvar max_logvar (before ++ l' :: after).
Proof. exact ensemble_grows. Qed.
Print Assumptions C82_ensemble_grows.
(** ... beyond the upper bound, whatever the size of the ensemble. *)
Theorem C82_ensemble_above_refuted : forall min_logvar max_logvar n, (1 <= n)%nat ->
  exists l, max_logvar < ensemble_logvar min_logvar max_logvar (repeat l n).
Proof. exact ensemble_exceeds. Qed.
Print Assumptions C82_ensemble_above_refuted.
(** C93: a step of gradient descent on alpha's loss raises alpha exactly when the batch's mean entropy is below
    the target, and lowers it exactly when it is above. *)
Theorem C93_gradient_step : forall logps target ln_alpha lr slope, logps <> [] -> 0 < lr ->
  derivable_pt_lim (alpha_loss logps target) ln_alpha slope ->
  let entropy := rsum (map Ropp logps) / INR (List.length logps) in
  (ln_alpha < ln_alpha - lr * slope <-> entropy < target) /\ (ln_alpha - lr * slope < ln_alpha <-> target < entropy).
Proof. exact alpha_step. Qed.
Print Assumptions C93_gradient_step.
(** C83: every parameter gets its state back if the groups are in the same order (C83_restored_partial: it
    gets nothing else).  Missing: another order. *)
Theorem C83_every_parameter_partial : forall V (groups : list nat * list nat) (moments : nat -> V) i,
  In i (fst groups ++ snd groups) -> In (i, moments i) (opt_load groups (opt_state groups moments)).
Proof. exact opt_every. Qed.
Print Assumptions C83_every_parameter_partial.
Example C83_case : exists g, modified_adamw (fun l => l) two_layers white0 black0 [] = Ok g /\
  opt_load g (opt_state g (fun i => (10 * i)%nat)) = [(0, 0); (2, 20); (1, 10); (3, 30)]%nat.
Proof. eexists. split; vm_compute; reflexivity. Qed.
