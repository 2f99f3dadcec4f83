(** * EnvProps: the theorems for C70 and C71, and cases that meet their hypotheses

    Every dynamics, reward and termination function, any number of environments,
    any sequence of resets and steps with any arguments, failing calls included. *)
From Verif Require Import Py ProxyModel EnvModel EnvSpec EnvProofs EnvMore.
Open Scope list_scope.
Open Scope Z_scope.

(** ** C70 *)
Theorem C70_episodes : forall (O A W : Type) (dy : dyn O A W) (n : nat) (calls : list (ecall O A)) (id : Z),
  one_episode (trace id (outputs (ehistory dy (make_env n) calls))).
Proof. exact (@episodes_ok). Qed.
Print Assumptions C70_episodes.

(** A reset starts an episode of a new agent for each environment. *)
Theorem C70_reset : forall (O A W : Type) (dy : dyn O A W) (n : nat) (calls : list (ecall O A)) past obs l D rest,
  ehistory dy (make_env n) calls = past ++ mkEvent (CReset obs l) (Ok D) :: rest ->
  List.length D = n /\ NoDup (dkeys D) /\
  forall i o, (i < n)%nat -> nth_error obs i = Some o -> exists id, nth_error D i = Some (id, mkDobs INITIAL o None) /\ trace id (outputs past) = [].
Proof. exact (@reset_ok). Qed.
Print Assumptions C70_reset.

(** A step answers every waiting agent, with a state that says why it ended if it
    did, and starts new agents; there are always as many waiting agents as
    environments. *)
Theorem C70_step : forall (O A W : Type) (dy : dyn O A W) (n : nat) (calls : list (ecall O A)) past acts D rest,
  ehistory dy (make_env n) calls = past ++ mkEvent (CStep acts) (Ok D) :: rest ->
  exists b D0, last_output past None = Some (b, D0) /\ NoDup (dkeys D)
  /\ (forall id d, dget D id = Some d -> (d_state d = INITIAL /\ d_reward d = None /\ trace id (outputs past) = []) \/ In id (waiting D0))
  /\ (forall id, In id (waiting D0) -> exists d a o, dget D id = Some d /\ dget acts id = Some a /\
        predicted dy (steps_made past) (rollout_len past 0 <=? steps_since past 0 + 1) o a d)
  /\ List.length (waiting D0) = n /\ List.length (waiting D) = n.
Proof. exact (@env_steps). Qed.
Print Assumptions C70_step.

(** A step with an action for everybody who waits works. *)
Theorem C70_step_accepted : forall (O A W : Type) (dy : dyn O A W) (n : nat) (calls : list (ecall O A)) past acts x rest b D0,
  (1 <= n)%nat -> Forall (full_reset n) calls ->
  ehistory dy (make_env n) calls = past ++ mkEvent (CStep acts) x :: rest -> last_output past None = Some (b, D0) ->
  (forall id, In id (waiting D0) -> dget acts id <> None) -> exists D, x = Ok D.
Proof. exact (@step_accepted). Qed.
Print Assumptions C70_step_accepted.

(** The time limit counts from the reset, for agents that came later too: once it
    is reached, every step ends every episode. *)
Theorem C70_time_limit_finding : forall (O A W : Type) (dy : dyn O A W) (n : nat) (calls : list (ecall O A)) past acts D rest,
  ehistory dy (make_env n) calls = past ++ mkEvent (CStep acts) (Ok D) :: rest ->
  rollout_len past 0 <= steps_since past 0 + 1 -> forall id d, dget D id = Some d -> d_state d <> RUNNING.
Proof. exact (@time_up). Qed.
Print Assumptions C70_time_limit_finding.

(** ** C71 *)
(** Missing: the first step of an agent that a step started (see the counterexample). *)
Theorem C71_follows_model_partial : forall (O A W : Type) (dy : dyn O A W) (n : nat) (calls : list (ecall O A)) past acts D rest,
  ehistory dy (make_env n) calls = past ++ mkEvent (CStep acts) (Ok D) :: rest ->
  exists b D0, last_output past None = Some (b, D0) /\
  forall id d0 d a, dget D0 id = Some d0 -> dget D id = Some d -> dget acts id = Some a -> is_final (d_state d0) = false ->
    ~ (b = true /\ d_state d0 = INITIAL) ->
    predicted dy (steps_made past) (rollout_len past 0 <=? steps_since past 0 + 1) (d_obs d0) a d.
Proof. exact (@follows_model). Qed.
Print Assumptions C71_follows_model_partial.

(** Counting: the next observation is the sum; three is the end. *)
Definition counting : dyn Z Z Z := mkDyn (fun _ _ o a => (o + a, a)) None (fun _ _ o => 3 <=? o).
Definition counted : list (event Z Z Z) := ehistory counting (make_env 1) [CReset [0] 9; CStep [(1, 5)]; CStep [(2, 1)]].
Lemma counted_eq : counted =
  [mkEvent (CReset [0] 9) (Ok [(1, mkDobs INITIAL 0 None)]);
   mkEvent (CStep [(1, 5)]) (Ok [(1, mkDobs TERMINAL 5 (Some 5)); (2, mkDobs INITIAL 0 None)]);
   mkEvent (CStep [(2, 1)]) (Ok [(2, mkDobs TERMINAL 6 (Some 1)); (3, mkDobs INITIAL 0 None)])].
Proof. reflexivity. Qed.
(** Agent 2 starts at 0, adds 1 and arrives at 6. *)
Theorem C71_follows_model_refuted :
  exists (dy : dyn Z Z Z) calls past acts D rest b D0 id d0 d a,
  ehistory dy (make_env 1) calls = past ++ mkEvent (CStep acts) (Ok D) :: rest /\
  last_output past None = Some (b, D0) /\ dget D0 id = Some d0 /\ dget D id = Some d /\ dget acts id = Some a /\ is_final (d_state d0) = false /\
  forall call time_up, ~ predicted dy call time_up (d_obs d0) a d.
Proof.
  exists counting, [CReset [0] 9; CStep [(1, 5)]; CStep [(2, 1)]],
    [mkEvent (CReset [0] 9) (Ok [(1, mkDobs INITIAL 0 None)]);
     mkEvent (CStep [(1, 5)]) (Ok [(1, mkDobs TERMINAL 5 (Some 5)); (2, mkDobs INITIAL 0 None)])],
    [(2, 1)], [(2, mkDobs TERMINAL 6 (Some 1)); (3, mkDobs INITIAL 0 None)], [], true,
    [(1, mkDobs TERMINAL 5 (Some 5)); (2, mkDobs INITIAL 0 None)], 2, (mkDobs INITIAL 0 None), (mkDobs TERMINAL 6 (Some 1)), 1.
  split; [exact counted_eq|]. do 5 (split; [reflexivity|]).
  intros call time_up (row & w & E & _). cbn in E. injection E as E _. discriminate.
Qed.
Print Assumptions C71_follows_model_refuted.

(** Two environments: one ends by the termination function, one by the time limit;
    a wrong call in between. *)
Example C70_case :
  ehistory counting (make_env 2) [CStep []; CReset [0; 1; 2] 5; CReset [0; 1] 2; CStep [(4, 1); (5, 5)]; CStep [(4, 1)]; CStep [(4, 0); (6, 0)]] =
  [mkEvent (CStep []) (Err KeyError);
   mkEvent (CReset [0; 1; 2] 5) (Ok [(2, mkDobs INITIAL 0 None); (3, mkDobs INITIAL 1 None)]);
   mkEvent (CReset [0; 1] 2) (Ok [(4, mkDobs INITIAL 0 None); (5, mkDobs INITIAL 1 None)]);
   mkEvent (CStep [(4, 1); (5, 5)]) (Ok [(5, mkDobs TERMINAL 6 (Some 5)); (6, mkDobs INITIAL 1 None); (4, mkDobs RUNNING 1 (Some 1))]);
   mkEvent (CStep [(4, 1)]) (Err KeyError);
   mkEvent (CStep [(4, 0); (6, 0)]) (Ok [(4, mkDobs INTERRUPTED 1 (Some 0)); (7, mkDobs INITIAL 0 None); (6, mkDobs TERMINAL 6 (Some 0)); (8, mkDobs INITIAL 1 None)])].
Proof. reflexivity. Qed.
(** The hypotheses of the theorems on steps are met. *)
Example C70_case_hyps : exists past D rest, ehistory counting (make_env 2) [CReset [0; 1] 2; CStep [(2, 1); (3, 5)]; CStep [(2, 0); (4, 0)]]
    = past ++ mkEvent (CStep [(2, 0); (4, 0)]) (Ok D) :: rest
  /\ rollout_len past 0 <= steps_since past 0 + 1 /\ Forall (full_reset (A := Z) 2) [CReset [0; 1] 2; CStep [(2, 1); (3, 5)]; CStep [(2, 0); (4, 0)]]
  /\ match last_output past None with Some (_, D0) => waiting D0 = [4; 2] | None => False end.
Proof.
  eexists [_; _], _, []. split; [reflexivity|]. split; [vm_compute; discriminate|]. split; [repeat constructor|]. reflexivity.
Qed.
