(** * EnvModel: emote/models/model_env.py *)
From Verif Require Import Py ProxyModel.
Open Scope list_scope.
Open Scope Z_scope.

Section Env.
(** Rows of observations and actions, and rewards. *)
Context {O A W : Type}.

(** emote/typing.py:71-76 as ModelEnv fills it: one array and one reward.  The
    reward of a first observation is None. *)
Record dobs : Type := mkDobs { d_state : estate; d_obs : O; d_reward : option W }.

(** What the environment is given: the dynamics, the reward function if any, and
    the termination function.  They work on batches; here they give the row, and
    may depend in any way on how often the model has been asked before and on the row
    (the noise).  Without a reward function the model predicts rewards.  emote/models/model_env.py:47-49, 104-112 *)
Record dyn : Type := mkDyn
  { dy_model : nat -> nat -> O -> A -> O * W;
    dy_reward : option (nat -> nat -> A -> O -> W);
    dy_done : nat -> nat -> O -> bool }.

(** emote/models/model_env.py:37-62.  [e_calls] counts the calls of the model. *)
Record env : Type := mkEnv
  { e_num : nat; e_ids : list Z; e_next : Z;        (** num_envs, _agent_ids, _next_agent *)
    e_current : option (list O); e_init : list O;   (** _current_obs, _init_obs *)
    e_timestep : Z; e_len : Z; e_calls : nat }.
(** n times next(self._next_agent).  emote/models/model_env.py:62, 187 *)
Definition new_ids (n : nat) (next : Z) : list Z := map (fun i => next + Z.of_nat i) (seq 0 n).
(** emote/models/model_env.py:37-62 __init__ *)
Definition make_env (n : nat) : env := mkEnv n (new_ids n 0) (Z.of_nat n) None [] 0 0 0.

(** emote/models/model_env.py:172-195 dict_reset with 64-79 reset: [obs[i]] fails when there are
    too few rows, after everything has been set. *)
Definition dict_reset (e : env) (obs : list O) (len_rollout : Z) : env * res (dict Z dobs) :=
  let ids := new_ids (e_num e) (e_next e) in
  let e' := mkEnv (e_num e) ids (e_next e + Z.of_nat (e_num e)) (Some obs) obs 0 len_rollout (e_calls e) in
  if Nat.ltb (List.length obs) (e_num e) then (e', Err IndexError)
  else (e', Ok (dupdate [] (map (fun x => (fst x, mkDobs INITIAL (snd x) None)) (combine ids obs)))).

(** emote/models/model_env.py:134-136 *)
Fixpoint gather (actions : dict Z A) (ids : list Z) : res (list A) :=
  match ids with
  | [] => Ok []
  | i :: r => match dget actions i with
              | None => Err KeyError
              | Some a => rbind (gather actions r) (fun l => Ok (a :: l))
              end
  end.

(** emote/models/model_env.py:81-119 step: one row for each environment; what is predicted, the
    reward, and whether the episode is over. *)
Fixpoint predict (dy : dyn) (call row : nat) (obs : list O) (acts : list A) : list (O * W * bool) :=
  match obs, acts with
  | o :: os, a :: rest =>
      let '(o', w) := dy_model dy call row o a in
      let w := match dy_reward dy with None => w | Some f => f call row a o' end in
      (o', w, dy_done dy call row o') :: predict dy call (S row) os rest
  | _, _ => []
  end.

(** emote/models/model_env.py:142-157: the loop over the environments.  In order: the entries of
    [results] it makes, _agent_ids and _next_agent after it, and new_agents. *)
Fixpoint respawn (timed_out : bool) (ids : list Z) (rows : list (O * W * bool)) (init : list O) (next : Z)
  : list (Z * dobs) * list Z * Z * list Z :=
  match ids, rows, init with
  | id :: ids', (o, w, done) :: rows', i :: init' =>
      if done || timed_out then
        let '(res, l, n, news) := respawn timed_out ids' rows' init' (next + 1) in
        ((id, mkDobs (if done then TERMINAL else INTERRUPTED) o (Some w)) :: (next, mkDobs INITIAL i None) :: res, next :: l, n, next :: news)
      else
        let '(res, l, n, news) := respawn timed_out ids' rows' init' next in
        (res, id :: l, n, news)
  | _, _, _ => ([], [], next, [])
  end.
(** emote/models/model_env.py:158-168: the entries of those that go on. *)
Fixpoint going_on (news : list Z) (ids : list Z) (rows : list (O * W * bool)) : list (Z * dobs) :=
  match ids, rows with
  | id :: ids', (o, w, _) :: rows' =>
      if inb id news then going_on news ids' rows' else (id, mkDobs RUNNING o (Some w)) :: going_on news ids' rows'
  | _, _ => []
  end.

(** emote/models/model_env.py:121-170 dict_step.  np.stack refuses an empty list, the model a
    batch of observations of another size (or none at all). *)
Definition dict_step (dy : dyn) (e : env) (actions : dict Z A) : env * res (dict Z dobs) :=
  match gather actions (e_ids e) with
  | Err x => (e, Err x)
  | Ok acts =>
      match acts, e_current e with
      | [], _ => (e, Err ValueError)
      | _, None => (e, Err TypeError)
      | _, Some cur =>
          if Nat.eqb (List.length cur) (List.length acts) then
            let rows := predict dy (e_calls e) 0 cur acts in
            let timestep := e_timestep e + 1 in
            let timed_out := e_len e <=? timestep in
            let '(res, ids, next, news) := respawn timed_out (e_ids e) rows (e_init e) (e_next e) in
            (mkEnv (e_num e) ids next (Some (map (fun r => fst (fst r)) rows)) (e_init e) timestep (e_len e) (S (e_calls e)),
             Ok (dupdate (dupdate [] res) (going_on news ids rows)))
          else (e, Err RuntimeError)
      end
  end.

(** Histories.  the public calls of emote/models/model_env.py:121-195 *)
Inductive ecall : Type := CReset (obs : list O) (len_rollout : Z) | CStep (actions : dict Z A).
(** one call of emote/models/model_env.py:121-195 and its answer *)
Record event : Type := mkEvent { ev_call : ecall; ev_answer : res (dict Z dobs) }.
(** one call of emote/models/model_env.py:121-195 *)
Definition ecall_step (dy : dyn) (e : env) (k : ecall) : env * res (dict Z dobs) :=
  match k with CReset o l => dict_reset e o l | CStep a => dict_step dy e a end.
(** a history of calls of emote/models/model_env.py:121-195 *)
Fixpoint ehistory (dy : dyn) (e : env) (calls : list ecall) : list event :=
  match calls with
  | [] => []
  | k :: r => let '(e', x) := ecall_step dy e k in mkEvent k x :: ehistory dy e' r
  end.
End Env.
Arguments dobs O W : clear implicits.
Arguments dyn O A W : clear implicits.
Arguments env O : clear implicits.
Arguments ecall O A : clear implicits.
Arguments event O A W : clear implicits.
