(** * EnvSpec: what a user expects of a simulated environment *)
From Verif Require Import Py ProxyModel EnvModel.
Open Scope list_scope.
Open Scope Z_scope.

Section Spec.
Context {O A W : Type}.
Notation event := (event O A W).
Notation output := (dict Z (dobs O W)).

(** What the calls returned. *)
Definition outputs (h : list event) : list output := flat_map (fun e => match ev_answer e with Ok d => [d] | Err _ => [] end) h.
(** The states one agent went through. *)
Definition trace (id : Z) (outs : list output) : list estate :=
  flat_map (fun d => match dget d id with Some x => [d_state x] | None => [] end) outs.
(** One episode at most, finished or not: INITIAL, RUNNING any number of times, and
    at most one final state. *)
Definition one_episode (l : list estate) : Prop :=
  l = [] \/ exists k fin, l = INITIAL :: repeat RUNNING k ++ fin /\ (fin = [] \/ exists s, is_final s = true /\ fin = [s]).
(** The agents that wait for an action. *)
Definition waiting (d : output) : list Z := map fst (filter (fun x => negb (is_final (d_state (snd x)))) d).

(** What the last call that worked returned, and whether it was a step. *)
Fixpoint last_output (h : list event) (acc : option (bool * output)) : option (bool * output) :=
  match h with
  | [] => acc
  | e :: r => last_output r (match ev_answer e with
                             | Ok d => Some (match ev_call e with CStep _ => true | CReset _ _ => false end, d)
                             | Err _ => acc
                             end)
  end.
(** The steps that worked, since the last reset that worked and altogether; the length the
    last reset was given. *)
Fixpoint steps_since (h : list event) (n : Z) : Z :=
  match h with
  | [] => n
  | e :: r => steps_since r (match ev_answer e with
                             | Ok _ => match ev_call e with CStep _ => n + 1 | CReset _ _ => 0 end
                             | Err _ => n
                             end)
  end.
Definition steps_made (h : list event) : nat :=
  List.length (filter (fun e => match ev_answer e, ev_call e with Ok _, CStep _ => true | _, _ => false end) h).
Fixpoint rollout_len (h : list event) (n : Z) : Z :=
  match h with
  | [] => n
  | e :: r => rollout_len r (match ev_answer e, ev_call e with Ok _, CReset _ l => l | _, _ => n end)
  end.

(** [x] is what the model, asked for the [call]-th time, predicts for an agent that
    observed [o] and did [a], with the reward and the termination that belong to it. *)
Definition predicted (dy : dyn O A W) (call : nat) (time_up : bool) (o : O) (a : A) (x : dobs O W) : Prop :=
  exists row w, dy_model dy call row o a = (d_obs x, w)
    /\ d_reward x = Some (match dy_reward dy with None => w | Some f => f call row a (d_obs x) end)
    /\ d_state x = if dy_done dy call row (d_obs x) then TERMINAL else if time_up then INTERRUPTED else RUNNING.

(** Resets bring one observation for each environment. *)
Definition full_reset (n : nat) (k : ecall O A) : Prop := match k with CReset obs _ => List.length obs = n | CStep _ => True end.
End Spec.
