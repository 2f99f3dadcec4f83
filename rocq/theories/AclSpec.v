(** * AclSpec: what a policy, its temperature and a dynamics model learn from in an experiment (for C155) *)
From Coq Require Import Reals.
From Verif Require Import Py MemModel MemSpec ProxyModel NumModel NumSpec E2ESpec AlgoSpec ActorModel ActorSpec GymModel LiveModel LiveSpec CrlSpec.
Open Scope string_scope.
Open Scope list_scope.
Open Scope R_scope.

Section Spec.
Context {S E V : Type} {HS : Scalar S}.
Variable (num : S -> R) (env : genv S E) (agent : V -> nat -> dict Z (obs S) -> res (dict Z (resp S))).

(** The losses of a policy and of its temperature on this batch are averages over what was seen in steps that were taken. *)
Definition actor_learns (cols : list (MemModel.column S)) (n L : nat) (notes : list (note S V)) (rows : dict string (array S)) : Prop :=
  forall (A : Type) (policy : nat -> list (row (S:=S)) -> A * R) q1 q2 ln_alpha t_entropy (obs : MemModel.column S),
  (1 <= n)%nat -> In obs cols -> is_base obs -> c_name obs = "obs" ->
  exists step, stretches env agent notes n L step /\
    actor_loss policy q1 q2 ln_alpha (observations rows [c_name obs] (n * L)) =
      average n L (fun r j t => let o := seen obs (step j t) in exp ln_alpha * snd (policy r o) - cautious q1 q2 (fst (policy r o)) o) /\
    temperature_loss policy t_entropy ln_alpha (observations rows [c_name obs] (n * L)) =
      average n L (fun r j t => ln_alpha * (- snd (policy r (seen obs (step j t))) - t_entropy)).

(** The transitions of these steps: what was seen, what was shown next, what was done, what was received. *)
Definition happened_steps (obs action reward : MemModel.column S) (l : list (estep S)) : transitions :=
  mkTr (map (fun x => map num (map (c_cast obs) (es_saw x))) l) (map (fun x => map num (map (c_cast obs) (an_obs (es_got x)))) l)
       (map (done num action) l) (map (fun x => [num (c_cast reward (an_reward (es_got x)))]) l).
(** The transitions a dynamics model is given, in a batch of single steps, are steps that were taken. *)
Definition model_learns (cols : list (MemModel.column S)) (n : nat) (notes : list (note S V)) (rows : dict string (array S)) : Prop :=
  forall obs next action reward : MemModel.column S,
  In obs cols -> is_base obs -> c_name obs = "obs" -> In next cols -> c_kind next = KVirt (c_name obs) MNext ->
  In action cols -> is_base action -> c_name action = "actions" -> In reward cols -> is_base reward -> c_name reward = "rewards" ->
  exists l, List.length l = n /\ Forall (fun x => in_an_episode env [x] /\ was_taken agent notes x) l /\
    drawn num rows (c_name obs) (c_name next) (c_name action) (c_name reward) = happened_steps obs action reward l.
End Spec.
