(** * GymModel: tests/gym/dict_gym_wrapper.py, tests/gym/collector.py, tests/gym/hit_the_middle.py;
    the collectors that the experiments (experiments/gym) train with *)
From Coq Require Import Reals.
From Verif Require Import Py MemModel ProxyModel NumModel.
Open Scope string_scope.
Open Scope list_scope.
Open Scope Z_scope.

Section Gym.
Context {S E : Type}.
Variable num : S -> R.
Notation row := (list S).

(** What one environment answers to a step: observation, reward, terminated, truncated.
    for tests/gym/dict_gym_wrapper.py:41 *)
Record answer : Type := mkAns { an_obs : row; an_reward : S; an_term : bool; an_trunc : bool }.
(** A gymnasium environment with state in [E]: reset and step, for tests/gym/dict_gym_wrapper.py:41, 88-89.
    Randomness is part of the state. *)
Record genv : Type := mkGenv { g_reset : E -> E * row; g_step : E -> row -> E * answer }.
Variable env : genv.
(** One entry of what the vector environment returns: next_obs, rewards, terminated, truncated and
    info["final_observation"]; tests/gym/dict_gym_wrapper.py:41, 54 *)
Record vstep : Type := mkV { v_obs : row; v_reward : S; v_term : bool; v_trunc : bool; v_final : row }.
(** gymnasium's vector environment, one of the environments: an environment that ended is reset at once, the last
    observation is kept as final observation.  used at tests/gym/dict_gym_wrapper.py:40-41 *)
Definition vec_one (e : E) (action : row) : E * vstep :=
  let '(e', a) := g_step env e action in
  if an_term a || an_trunc a
  then let '(e'', o) := g_reset env e' in (e'', mkV o (an_reward a) (an_term a) (an_trunc a) (an_obs a))
  else (e', mkV (an_obs a) (an_reward a) (an_term a) (an_trunc a) []).
(** DictGymWrapper, tests/gym/dict_gym_wrapper.py:13-18; [gy_envs] are the states of the environments *)
Record gym : Type := mkGym { gy_envs : list E; gy_next : Z; gy_ids : list Z; gy_sums : list R }.

(** [next(self._next_agent) for i in range(num_envs)], tests/gym/dict_gym_wrapper.py:17, 87 *)
Fixpoint fresh (next : Z) (n : nat) : list Z := match n with O => [] | Datatypes.S n' => next :: fresh (next + 1) n' end.
(** tests/gym/dict_gym_wrapper.py:14-18 __init__ *)
Definition gym_new (envs : list E) : gym :=
  let n := List.length envs in mkGym envs (Z.of_nat n) (fresh 0 n) (repeat 0%R n).

(** tests/gym/dict_gym_wrapper.py:58-62, 91-95: an observation of an episode; Simplification: the reward None of
    an initial observation is left out (nothing reads it, emote/memory/memory.py:121-129) *)
Definition initial_obs (o : row) : obs S := mkObs [] INITIAL [("obs", o)].
(** tests/gym/dict_gym_wrapper.py:52-56, 70-74 *)
Definition later_obs (st : estate) (reward : S) (o : row) : obs S := mkObs [("reward", [reward])] st [("obs", o)].

(** tests/gym/dict_gym_wrapper.py:37-39: the actions in the order of the environments *)
Definition batched_actions (ids : list Z) (actions : dict Z (resp S)) : res (list row) :=
  rmapM (fun id => match dget actions id with
                   | None => Err KeyError
                   | Some r => match dget (r_list r) "actions" with None => Err KeyError | Some a => Ok a end
                   end) ids.
(** What the loop of tests/gym/dict_gym_wrapper.py:50-66 changes: results, new_agents, completed_episode_rewards,
    the counter, and the lists _agent_ids and _episode_rewards *)
Record loop : Type := mkLoop { lp_results : dict Z (obs S); lp_new : list Z; lp_completed : list R; lp_next : Z; lp_ids : list Z; lp_sums : list R }.
(** tests/gym/dict_gym_wrapper.py:50-66; [vs] with the identity and the reward so far of each environment *)
Fixpoint done_loop (results : dict Z (obs S)) (next : Z) (l : list (Z * R * vstep)) : loop :=
  match l with
  | [] => mkLoop results [] [] next [] []
  | ((id, s), v) :: r =>
      if v_term v || v_trunc v
      then let k := done_loop (dset (dset results id (later_obs TERMINAL (v_reward v) (v_final v))) next (initial_obs (v_obs v))) (next + 1) r in
           mkLoop (lp_results k) (next :: lp_new k) (s :: lp_completed k) (lp_next k) (next :: lp_ids k) (0%R :: lp_sums k)
      else let k := done_loop results next r in
           mkLoop (lp_results k) (lp_new k) (lp_completed k) (lp_next k) (id :: lp_ids k) (s :: lp_sums k)
  end.
(** tests/gym/dict_gym_wrapper.py:68-78 *)
Fixpoint running_obs (results : dict Z (obs S)) (new : list Z) (l : list (Z * vstep)) : dict Z (obs S) :=
  match l with
  | [] => results
  | (id, v) :: r => running_obs (if inb id new then results else dset results id (later_obs RUNNING (v_reward v) (v_obs v))) new r
  end.
(** tests/gym/dict_gym_wrapper.py:36-84 dict_step *)
Definition dict_step (g : gym) (actions : dict Z (resp S)) : res (gym * dict Z (obs S) * option R) :=
  rbind (batched_actions (gy_ids g) actions) (fun acts =>
  let evs := map (fun ea => vec_one (fst ea) (snd ea)) (combine (gy_envs g) acts) in
  let vs := map snd evs in
  let sums := map (fun sv => (fst sv + num (v_reward (snd sv)))%R) (combine (gy_sums g) vs) in
  let k := done_loop [] (gy_next g) (combine (combine (gy_ids g) sums) vs) in
  let results := running_obs (lp_results k) (lp_new k) (combine (lp_ids k) vs) in
  Ok (mkGym (map fst evs) (lp_next k) (lp_ids k) (lp_sums k), results,
      match lp_completed k with [] => None | c => Some (rsum c / INR (List.length c))%R end)).
(** tests/gym/dict_gym_wrapper.py:86-97 dict_reset *)
Definition dict_reset (g : gym) : gym * dict Z (obs S) :=
  let n := List.length (gy_envs g) in
  let ids := fresh (gy_next g) n in
  let evs := map (g_reset env) (gy_envs g) in
  (mkGym (map fst evs) (gy_next g + Z.of_nat n) ids (gy_sums g),
   fold_left (fun d io => dset d (fst io) (initial_obs (snd io))) (combine ids (map snd evs)) []).

(** ** The collector *)
(** The agent: [agent i] is what it answers when it is asked for the i-th time (its network changes while training,
    and it draws random numbers); tests/gym/collector.py:38, 59 *)
Variable agent : nat -> dict Z (obs S) -> res (dict Z (resp S)).
(** GymCollector: the wrapper, the current observations, how often the agent was asked;
    tests/gym/collector.py:17-32, 42 *)
Record collector : Type := mkCo { co_gym : gym; co_obs : dict Z (obs S); co_asked : nat }.
(** tests/gym/collector.py:34-45 collect_data, without the rendering: the call of memory.add and the logged episode reward.
    [draws] feeds the ejector of the memory table *)
Definition collect_data (draws : nat -> list (list draw)) (c : collector) : res (collector * (pop S * option R)) :=
  rbind (agent (co_asked c) (co_obs c)) (fun actions =>
  rbind (dict_step (co_gym c) actions) (fun gri =>
  Ok (mkCo (fst (fst gri)) (snd (fst gri)) (1 + co_asked c), (PAdd (co_obs c) actions (draws (co_asked c)), snd gri)))).
(** tests/gym/collector.py:47-53 collect_multiple: the calls of memory.add, in order *)
Fixpoint collect_multiple (draws : nat -> list (list draw)) (count : nat) (c : collector) : res (collector * list (pop S * option R)) :=
  match count with
  | O => Ok (c, [])
  | Datatypes.S n =>
      rbind (collect_data draws c) (fun cl =>
      rbind (collect_multiple draws n (fst cl)) (fun cr => Ok (fst cr, snd cl :: snd cr)))
  end.
(** tests/gym/collector.py:55-61 begin_training, before the warmup: one step is tried and thrown away *)
Definition begin_training (g : gym) : res collector :=
  let '(g1, obs1) := dict_reset g in
  rbind (agent 0 obs1) (fun actions =>
  rbind (dict_step g1 actions) (fun gri =>
  let '(g3, obs3) := dict_reset (fst (fst gri)) in
  Ok (mkCo g3 obs3 1))).
(** tests/gym/collector.py:55-65, then [count] calls of collect_data *)
Definition collect_run (draws : nat -> list (list draw)) (g : gym) (count : nat) : res (collector * list (pop S * option R)) :=
  rbind (begin_training g) (collect_multiple draws count).
End Gym.
Arguments answer S : clear implicits.
Arguments genv S E : clear implicits.
Arguments vstep S : clear implicits.

(** ** SimpleGymCollector: the counter *)
(** tests/gym/collector.py:132-135 begin_batch, for every batch: the new inf_step, and whether data was collected *)
Fixpoint simple_batches (num_envs bp_steps_per_inf : Z) (inf_step : Z) (bp_steps : list Z) : Z * list bool :=
  match bp_steps with
  | [] => (inf_step, [])
  | bp :: r =>
      let k := simple_batches num_envs bp_steps_per_inf (inf_step + num_envs) r in
      (fst k, (bp mod bp_steps_per_inf =? 0) :: snd k)
  end.
(** tests/gym/collector.py:128-135: inf_step after the batches; [warmup_steps] is what begin_training returns *)
Definition simple_inf_step (num_envs bp_steps_per_inf warmup_steps : Z) (bp_steps : list Z) : Z :=
  fst (simple_batches num_envs bp_steps_per_inf warmup_steps bp_steps).

(** ** ThreadedGymCollector *)
(** Where the collecting thread is: about to read [_stop], inside collect_data, ended; tests/gym/collector.py:95-96 *)
Inductive tpc : Type := TCheck | TCollect | TEnded.
(** Where the training thread is: training, joining, closing the environment, after end_training; tests/gym/collector.py:103-112 *)
Inductive mpc : Type := MTraining | MJoin | MClose | MDone.
(** [th_stop] is the flag, [th_added] counts finished collect_data calls, [th_closed] the environment;
    tests/gym/collector.py:79-80, 98-112 *)
Record threads : Type := mkTh { th_stop : bool; th_tpc : tpc; th_mpc : mpc; th_added : nat; th_closed : bool; th_after_close : bool }.
(** One step of the collecting thread, tests/gym/collector.py:82-96; [th_after_close] records a call on a closed environment *)
Definition thread_step (t : threads) : option threads :=
  match th_tpc t with
  | TCheck => Some (mkTh (th_stop t) (if th_stop t then TEnded else TCollect) (th_mpc t) (th_added t) (th_closed t) (th_after_close t))
  | TCollect => Some (mkTh (th_stop t) TCheck (th_mpc t) (1 + th_added t) (th_closed t) (th_after_close t || th_closed t))
  | TEnded => None
  end.
(** One step of the training thread, tests/gym/collector.py:103-112 end_training: set the flag; wait for the thread; close *)
Definition main_step (t : threads) : option threads :=
  match th_mpc t with
  | MTraining => Some (mkTh true (th_tpc t) MJoin (th_added t) (th_closed t) (th_after_close t))
  | MJoin => match th_tpc t with
             | TEnded => Some (mkTh (th_stop t) (th_tpc t) MClose (th_added t) (th_closed t) (th_after_close t))
             | _ => None
             end
  | MClose => Some (mkTh (th_stop t) (th_tpc t) MDone (th_added t) true (th_after_close t))
  | MDone => None
  end.
(** A schedule: [true] is a step of the collecting thread; a blocked thread does nothing.
    tests/gym/collector.py:82-112 *)
Fixpoint threads_run (t : threads) (schedule : list bool) : threads :=
  match schedule with
  | [] => t
  | b :: r => threads_run (match (if b then thread_step t else main_step t) with Some t' => t' | None => t end) r
  end.
(** tests/gym/collector.py:98-101 begin_training starts the thread; [_stop] keeps its value *)
Definition threads_start (stop : bool) : threads := mkTh stop TCheck MTraining 0 false false.

(** ** HitTheMiddle *)
Local Open Scope R_scope.
(** tests/gym/hit_the_middle.py:15-16: position, velocity, step *)
Record middle : Type := mkMid { hm_pos : R; hm_vel : R; hm_step : nat }.
(** tests/gym/hit_the_middle.py:19-41 step: the new state, reward, done *)
Definition middle_step (m : middle) (action : R) : middle * R * bool :=
  let vel := hm_vel m + action in
  let pos := hm_pos m + vel in
  let step := (hm_step m + 1)%nat in
  let '(pos, vel) := if Rgt_dec pos 10 then (10, vel * (-1)) else if Rlt_dec pos (-10) then (-10, vel * (-1)) else (pos, vel) in
  let '(step, done) := if Nat.ltb 30 step then (0%nat, true) else (step, false) in
  (mkMid pos vel step, - (pos ^ 2), done).
(** tests/gym/hit_the_middle.py:47-52 reset; [u] and [w] are the two values of random() *)
Definition middle_reset (u w : R) : middle := mkMid (u * 20 - 10) (w * (1 / 2) - 1 / 4) 0.
