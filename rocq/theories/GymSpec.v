(** * GymSpec: what collecting from environments should do *)
From Coq Require Import Reals.
From Verif Require Import Py MemModel MemSpec ProxyModel ProxySpec AgentSpec NumModel GymModel.
Open Scope string_scope.
Open Scope list_scope.
Open Scope Z_scope.

Section Spec.
Context {S E : Type}.
Variable env : genv S E.
Notation row := (list S).

(** How an episode ends: [stop term trunc] is the state reported for a step's flags. *)
Variable stop : bool -> bool -> estate.
(** An episode of the environment, as one agent experiences it: the observation of a reset; then, for every action the
    agent answers, the reward and the observation of the step the environment makes from its state.
    The last observation has no answer yet; [e] is the state of the environment. *)
Inductive play : list (moment (S := S)) -> E -> Prop :=
| play_reset : forall e0 e o, g_reset env e0 = (e, o) -> play [(mkObs [] INITIAL [("obs", o)], None)] e
| play_step : forall before ob e action e' a, play (before ++ [(ob, None)]) e -> is_final (o_state ob) = false -> g_step env e action = (e', a) ->
    play (before ++ [(ob, Some (mkResp [("actions", action)] []));
                     (mkObs [("reward", [an_reward a])] (stop (an_term a) (an_trunc a)) [("obs", an_obs a)], None)]) e'.
(** The whole of it, and a part of it that the agent has answered. *)
Definition whole_play (ms : list (moment (S := S))) : Prop := exists before ob e, ms = before ++ [(ob, None)] /\ play ms e /\ is_final (o_state ob) = true.
Definition open_play (ms : list (moment (S := S))) : Prop :=
  exists before ob action e, ms = before ++ [(ob, Some (mkResp [("actions", action)] []))] /\ play (before ++ [(ob, None)]) e /\ is_final (o_state ob) = false.

(** A state the environment gets into, and what it showed there. *)
Inductive reached : E -> row -> Prop :=
| reached_reset : forall e0 e o, g_reset env e0 = (e, o) -> reached e o
| reached_step : forall e o action e' a, reached e o -> g_step env e action = (e', a) -> an_term a || an_trunc a = false -> reached e' (an_obs a).

(** An agent that answers everyone who waits with an action of [size] numbers, given observations of [seen] numbers. *)
Definition answers_all (seen size : nat) (agent : nat -> dict Z (obs S) -> res (dict Z (resp S))) : Prop :=
  forall i os, NoDup (dkeys os) -> waiting os <> [] ->
    Forall (fun x => exists o, o_data (snd x) = [("obs", o)] /\ List.length o = seen) os ->
    exists rs, agent i os = Ok rs /\ dkeys rs = map fst (waiting os) /\
      Forall (fun x => exists a, snd x = mkResp [("actions", a)] [] /\ List.length a = size) rs.
(** Observations of [size] numbers. *)
Definition shows (size : nat) : Prop :=
  (forall e, List.length (snd (g_reset env e)) = size) /\ (forall e a, List.length (an_obs (snd (g_step env e a))) = size).

(** Ended by its own rules, ended in any way. *)
Definition any_end (term trunc : bool) : estate := if term || trunc then TERMINAL else RUNNING.
Definition own_end (term trunc : bool) : estate := if term then TERMINAL else if trunc then INTERRUPTED else RUNNING.

(** The calls of memory.add in a history, between which the table may be used in other ways. *)
Definition adds_of (h : list (pop S)) : list (pop S) := filter (fun o => match o with PAdd _ _ _ => true | PUse _ => false end) h.
Definition other_uses (h : list (pop S)) : Prop :=
  Forall (fun o => match o with PUse (OAdd _ _ _) | PUse OClear => False | _ => True end) h.

(** The sum of the rewards of an episode. *)
Variable num : S -> R.
Definition total (ms : list (moment (S := S))) : R :=
  rsum (map (fun m => match dget (o_rewards (fst m)) "reward" with Some [r] => num r | _ => 0%R end) ms).
(** The agents whose episode ended with these observations. *)
Definition ended (os : dict Z (obs S)) : list Z := map fst (filter (fun ao => is_final (o_state (snd ao))) os).
(** What an agent experienced up to now: the calls of memory.add, and what it sees now. *)
Definition so_far (h : list (pop S)) (os : dict Z (obs S)) (a : Z) : list (moment (S := S)) :=
  stream a h ++ match dget os a with Some ob => [(ob, None)] | None => [] end.
(** What the environments showed after the call number [k] of memory.add. *)
Definition seen_after (outs : list (pop S * option R)) (now : dict Z (obs S)) (k : nat) : dict Z (obs S) :=
  match nth_error outs (Datatypes.S k) with Some (PAdd os _ _, _) => os | _ => now end.
(** Nothing, or the reward of one step after a reset that did not end its episode. *)
Definition tried (r : R) : Prop := r = 0%R \/ exists e0 e o action e' a, g_reset env e0 = (e, o) /\ g_step env e action = (e', a) /\
   an_term a || an_trunc a = false /\ r = num (an_reward a).
(** The mean of some numbers, if there are any. *)
Definition mean_of (l : list R) : option R := match l with [] => None | _ => Some (rsum l / INR (List.length l))%R end.
End Spec.
Arguments play {S E} env stop _ _.

(** Row [r] of a batch is a step of the environment: from observation [o] with [action] to the answer [a]. *)
Definition gym_row {S} {HS : Scalar S} (cols : list (column S)) (out : dict string (array S)) (r : nat) (o action : list S) (a : answer S) : Prop :=
  forall c, In c cols ->
    (is_base c -> c_name c = "obs" -> batch_row out "obs" r = Some (map (c_cast c) o)) /\
    (is_base c -> c_name c = "actions" -> batch_row out "actions" r = Some (map (c_cast c) action)) /\
    (is_base c -> c_name c = "rewards" -> batch_row out "rewards" r = Some [c_cast c (an_reward a)]) /\
    (forall d, In d cols -> c_kind c = KVirt (c_name d) MNext -> batch_row out (c_name c) r = Some (map (c_cast d) (an_obs a))) /\
    (forall tg, c_kind c = KVirt tg MDones -> batch_row out (c_name c) r = Some [if an_term a || an_trunc a then s_one else s_zero]) /\
    (forall tg, c_kind c = KVirt tg MMask -> batch_row out (c_name c) r = Some [if an_term a || an_trunc a then s_zero else s_one]).
(** The columns have the sizes of the observations, the actions and the rewards. *)
Definition gym_sizes {S} (dobs dact : nat) (cols : list (column S)) : Prop :=
  forall c, In c (storage_cols cols) -> (c_name c = "obs" -> c_rowsize c = dobs) /\ (c_name c = "actions" -> c_rowsize c = dact) /\
    (c_name c = "rewards" \/ c_name c = "terminal" -> c_rowsize c = 1%nat).

(** The steps of environments that are collected in batches [bps], when data is collected every [per] batches. *)
Definition collected (num_envs per : Z) (bps : list Z) : Z := num_envs * Z.of_nat (List.length (filter (fun bp => bp mod per =? 0) bps)).

(** ** HitTheMiddle *)
Local Open Scope R_scope.
(** A number of steps with the given actions: positions and whether done was reported. *)
Fixpoint middle_steps (m : middle) (actions : list R) : list (R * R * bool) :=
  match actions with
  | [] => []
  | a :: r => let '(m', reward, done) := middle_step m a in (hm_pos m', reward, done) :: middle_steps m' r
  end.
