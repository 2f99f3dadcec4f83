(** * CollModel: emote/models/callbacks.py, ModelBasedCollector *)
From Verif Require Import Py MemModel ProxyModel EnvModel.
Open Scope string_scope.
Open Scope list_scope.
Open Scope Z_scope.

Section Coll.
Context {S : Type} `{Scalar S}.
Notation row := (list S).
Notation output := (dict Z (dobs row row)).

(** emote/typing.py:71-76 as emote/models/model_env.py:145-155, 160-164 and 189-193 fill it: one array under
    the input key, one reward under "reward".  The reward None of a first observation
    is left out: emote/memory/memory.py:133 does not read it. *)
Definition as_obs (input_key : string) (d : dobs row row) : obs S :=
  mkObs (match d_reward d with Some w => [("reward", w)] | None => [] end) (d_state d) [(input_key, d_obs d)].
(** The observations of all agents at once, as emote/models/model_env.py:142-168 returns them. *)
Definition as_batch (input_key : string) (d : output) : dict Z (obs S) := map (fun x => (fst x, as_obs input_key (snd x))) d.

(** emote/models/callbacks.py:209-238: what the collector is given.  The agent may answer in any
    way, depending on how often it has been asked; [kc_draws] feeds the ejector of the
    memory.  [kc_len b] is int(rollout_scheduler.evaluate_at(b)). *)
Record kconf : Type := mkKc
  { kc_dyn : dyn row (resp S) row; kc_agent : nat -> output -> dict Z (resp S);
    kc_proxy : pconf; kc_key : string; kc_draws : nat -> list (list draw);
    kc_len : Z -> Z; kc_retain : Z }.

(** The collector with its environment and its memory; [k_asked] counts the calls of
    the agent.  [k_calls] and [k_uses] record the calls made so far to the environment
    and to the memory.  emote/models/callbacks.py:209-238. *)
Record coll : Type := mkColl
  { k_env : env row; k_proxy : proxy S; k_obs : output; k_len : Z; k_bp : Z; k_asked : nat;
    k_calls : list (ecall row (resp S)); k_uses : list (pop S) }.

(** emote/models/callbacks.py:209-238 with ModelEnv(num_envs=n) and a new memory; [len] is
    int(rollout_scheduler.value_min) *)
Definition coll_init (n : nat) (t : table S) (len : Z) : coll := mkColl (make_env n) (px_new t) [] len 0 0 [] [].

(** emote/models/callbacks.py:252-261 collect_sample; ep_info is always empty (emote/models/model_env.py:169) *)
Definition collect_sample (c : kconf) (k : coll) : coll * res unit :=
  let actions := kc_agent c (k_asked k) (k_obs k) in
  let calls := k_calls k ++ [CStep actions] in
  let asked := Datatypes.S (k_asked k) in
  match dict_step (kc_dyn c) (k_env k) actions with
  | (e, Err x) => (mkColl e (k_proxy k) (k_obs k) (k_len k) (k_bp k) asked calls (k_uses k), Err x)
  | (e, Ok next_obs) =>
      let os := as_batch (kc_key c) (k_obs k) in
      let dr := kc_draws c (k_asked k) in
      let uses := k_uses k ++ [PAdd os actions dr] in
      match proxy_add (kc_proxy c) (k_proxy k) os actions dr with
      | (p, Err x) => (mkColl e p (k_obs k) (k_len k) (k_bp k) asked calls uses, Err x)
      | (p, Ok _) => (mkColl e p next_obs (k_len k) (k_bp k) asked calls uses, Ok tt)
      end
  end.
(** emote/models/callbacks.py:246-247, the loop *)
Fixpoint collect_samples (c : kconf) (times : nat) (k : coll) : coll * res unit :=
  match times with
  | 0%nat => (k, Ok tt)
  | Datatypes.S m => match collect_sample c k with
                     | (k', Err x) => (k', Err x)
                     | (k', Ok _) => collect_samples c m k'
                     end
  end.

(** emote/models/callbacks.py:263-271 update_rollout_size, with emote/memory/memory.py:99-100 *)
Definition update_rollout_size (c : kconf) (k : coll) : coll * res unit :=
  let bp := k_bp k + 1 in
  let len := kc_len c bp in
  if k_len k =? len then (mkColl (k_env k) (k_proxy k) (k_obs k) (k_len k) bp (k_asked k) (k_calls k) (k_uses k), Ok tt)
  else
    let size := len * Z.of_nat (e_num (k_env k)) * kc_retain c in
    let p := k_proxy k in
    let '(t, x) := t_resize (px_table p) size in
    (mkColl (k_env k) (mkPx (px_store p) (px_done p) t) (k_obs k) len bp (k_asked k) (k_calls k) (k_uses k ++ [PUse (OResize size)]), x).

(** emote/models/callbacks.py:240-247 begin_batch.  [rows] is the batch under the input key;
    range(len + 1) is empty for a negative number. *)
Definition collect_batch (c : kconf) (k : coll) (rows : list row) : coll * res unit :=
  match update_rollout_size c k with
  | (k, Err x) => (k, Err x)
  | (k, Ok _) =>
      let calls := k_calls k ++ [CReset rows (k_len k)] in
      match dict_reset (k_env k) rows (k_len k) with
      | (e, Err x) => (mkColl e (k_proxy k) (k_obs k) (k_len k) (k_bp k) (k_asked k) calls (k_uses k), Err x)
      | (e, Ok o) => collect_samples c (Z.to_nat (k_len k + 1))
                       (mkColl e (k_proxy k) o (k_len k) (k_bp k) (k_asked k) calls (k_uses k))
      end
  end.
(** A training run: one batch after the other, until an exception ends it.  Calls of emote/models/callbacks.py:240-247. *)
Fixpoint collect_run (c : kconf) (k : coll) (batches : list (list row)) : coll * res unit :=
  match batches with
  | [] => (k, Ok tt)
  | b :: r => match collect_batch c k b with
              | (k', Err x) => (k', Err x)
              | (k', Ok _) => collect_run c k' r
              end
  end.
End Coll.
Arguments kconf S : clear implicits.
Arguments coll S : clear implicits.
